(** C46, C48, C50: the Aqua filter in every arithmetic. *)
(*@+*)
From Coq Require Import List Arith ZArith NArith Reals Lia Bool Lra SpecFloat.
From Flocq Require Import Core BinarySingleNaN.
From Verif Require Import M_Base M_Arith M_Utils M_Vector M_Matrix M_Quaternion M_Sensors M_Ar M_Aqua M_F32
  S_Spec S_Linalg S_Quat S_Sensors S_Ar S_Aqua P_Inst.
Import ListNotations.
Local Open Scope nat_scope.
(*@-*)
From Verif Require Import P_Hoare P_Cont P_Loops P_Access P_Pointwise P_Trans P_Float P_Product P_Dot P_Norm P_Interp P_Diag P_Quat P_Rot P_Sensors P_Ar.

Section Pure.
  Context {A : Arith} {OK : ArithOk A}.
  Definition ul (e : LinalgError) : Prop := exists k, e = UtilsErr k.

  Lemma vec3_ok x y z : valid x -> valid y -> valid z -> exists v, vec3 x y z = Ok v /\ vec_is v 3 (raw3 x y z).
  Proof. intros Vx Vy Vz. apply (w3_ok (raw3 x y z)). intros i Hi. do 3 (destruct i as [|i]; [assumption|]). lia. Qed.
  Lemma quat4_ok w x y z : rwp (quat4 (w, x, y, z)) (fun v => vec_is v 4 (quad w x y z) /\ quat_finite w x y z)
    (fun e => ul e /\ ~ quat_finite w x y z) False.
  Proof.
    unfold quat4. apply wp_exec, wp_bind. eapply wp_v_init; [lia|]. intros v0 H0.
    eapply wp_pv; [apply (q_fillq_pw v0 _ w x y z H0)| |].
    - intros v' Hv V. split; [exact Hv|]. pose proof (V 0 ltac:(lia)). pose proof (V 1 ltac:(lia)). pose proof (V 2 ltac:(lia)). pose proof (V 3 ltac:(lia)). unfold quat_finite; auto.
    - intros k i v' Hi B V H. split; [exists k; auto|]. intros (W & X & Y & Z). apply (bad_Some_not _ _ B). do 4 (destruct i as [|i]; [assumption|]). lia.
  Qed.
  Lemma quat4_not_finite q e : quat4 q = Err e -> ul e.
  Proof. destruct q as [[[w x] y] z]. intros E. pose proof (quat4_ok w x y z) as W. rewrite E in W. apply W. Qed.

  Definition dcm_l (f : nat -> T) : list T :=
    let w := f 0 in let x := f 1 in let y := f 2 in let z := f 3 in
    [ (w*w + x*x - y*y - z*z)%F; (f2*(x*y - w*z))%F; (f2*(x*z + w*y))%F;
      (f2*(x*y + w*z))%F; (f1 - f2*(x*x + z*z))%F; (f2*(y*z - w*x))%F;
      (f2*(x*z - w*y))%F; (f2*(w*x + y*z))%F; (f1 - f2*(x*x + y*y))%F ].
  Lemma dcm_rwp v f : vec_is v 4 f ->
    rwp (q_convert_to_dcm v) (fun m => mat_is m 3 3 (grid (dcm_l f)) /\ Forall valid (dcm_l f)) (fun e => ul e /\ ~ Forall valid (dcm_l f)) False.
  Proof.
    intros Hv. unfold q_convert_to_dcm.
    destruct (m_init_new 3 3 ltac:(lia) ltac:(lia)) as (m0 & E0 & H0).
    unfold exec at 1. rewrite E0. cbn [rbind].
    unfold q_get_qw, q_get_qx, q_get_qy, q_get_qz. rewrite !(q_get_is _ _ _ Hv) by lia. cbn [rbind].
    assert (D : forall l : list T, Forall valid l \/ ~ Forall valid l).
    { induction l as [|x l IH]; [left; constructor|]. destruct (valid_dec x) as [V|(k & B)]; [destruct IH as [IH|IH]|].
      - left. constructor; auto.
      - right. intros H. apply IH. inversion H; auto.
      - right. intros H. apply (bad_Some_not _ _ B). inversion H; auto. }
    assert (N : forall m x k g, mat_is m 3 3 g -> bad x = Some k -> In x (dcm_l f) -> ul (UtilsErr k) /\ ~ Forall valid (dcm_l f)).
    { intros m x k g _ B I. split; [exists k; auto|]. intros F. apply (bad_Some_not _ _ B). rewrite Forall_forall in F. auto. }
    unfold dcm_l in *. cbv zeta in *. apply wp_exec.
    do 8 (apply wp_bind; eapply wp_m_set; [exact H0|lia|lia| |intros k B; eapply N; [exact H0|exact B|cbn; tauto]]; let V := fresh "V" in clear H0; intros V ? H0).
    eapply wp_m_set; [exact H0|lia|lia| |intros k B; eapply N; [exact H0|exact B|cbn; tauto]]. intros V8 m9 H9.
    split; [|do 9 (apply Forall_cons; [assumption|]); apply Forall_nil].
    eapply mat_is_ext; [exact H9|]. intros i j Hi Hj.
    destruct i as [|[|[|i]]]; [| | |lia]; (destruct j as [|[|[|j]]]; [| | |lia]); reflexivity.
  Qed.
  (** components in the global frame: R(q)' x *)
  Definition tog (f x : nat -> T) (i : nat) : T := fsum 3 (fun k => grid (dcm_l f) k i * x k)%F.
  Lemma to_global_rwp q v temp f x t : vec_is q 4 f -> vec_is v 3 x -> mat_is temp 3 1 t ->
    rwp (to_global q v temp) (fun r => vec_is (fst r) 3 (tog f x) /\ mat_is (snd r) 3 1 (fun i _ => tog f x i) /\ Forall valid (dcm_l f))
      (fun e => ul e /\ ~ (Forall valid (dcm_l f) /\ forall i n, i < 3 -> 1 <= n <= 3 -> valid (fsum n (fun k => grid (dcm_l f) k i * x k)%F))) False.
  Proof.
    intros Hq Hv Ht. unfold to_global. apply rwp_bind. eapply rwp_conseq; [apply (dcm_rwp q f Hq)| | |intros []].
    2:{ intros e [U N]. split; [exact U|]. intros [H _]. auto. }
    intros d [Hd VD]. unfold exec at 1. destruct (m_transpose_ok d 3 3 _ Hd) as (d' & -> & Hd'). cbn [rbind].
    destruct (v_convert_ok v 3 x Hv) as (vm & -> & Hvm). cbn [rbind].
    pose proof (l_mul A temp d' vm 3 1 3 3 3 1 _ _ _ Ht Hd' Hvm) as P. cbn [Nat.eqb andb] in P. unfold exec.
    destruct (m_mul d' vm temp) as [m' o]. destruct P as [(V & E & Hm)|(i & j & n & e & Hi & Hj & Hn & B & _ & _ & E & _)]; cbn [fst snd] in *; subst o; cbn [rbind].
    - pose proof (col_to_vector_spec _ _ m' _ _ _ Hm 0) as C. cbn [Nat.leb] in C. destruct C as (g & -> & Hg). cbn [rbind rwp fst snd].
      split; [exact Hg|]. split; [|exact VD]. eapply mat_is_ext; [exact Hm|]. intros i j Hi Hj. reflexivity.
    - cbn [rwp]. split; [exists e; auto|]. intros [_ H]. apply (bad_Some_not _ _ B). apply (H i (S n)); lia.
  Qed.
  Lemma exec_pv v n f g cmd : pointwise_v n f g (cmd v) ->
    rwp (exec cmd v) (fun v' => vec_is v' n g /\ forall i, i < n -> valid (g i)) (fun e => ul e /\ ~ (forall i, i < n -> valid (g i))) False.
  Proof.
    intros P. apply wp_exec. eapply wp_pv; [exact P|auto|]. intros k i v' Hi B V H. split; [exists k; auto|]. intros X. apply (bad_Some_not _ _ B); auto.
  Qed.
  Lemma identity_q : exists v, exec (v_init 4 ;;! q_fill_identity) vnew = Ok v /\ vec_is v 4 (quad f1 f0 f0 f0).
  Proof.
    destruct (v_init_new 4 ltac:(lia)) as (v0 & E0 & H0). rewrite (exec_step _ _ _ _ E0). unfold exec, q_fill_identity.
    destruct (q_fillq_ok v0 _ f1 f0 f0 f0 H0) as (v1 & -> & H1); try apply ok_f0; try apply ok_f1. eauto.
  Qed.
  Lemma combine_rwp self v1 v2 n f f1' f2' x1 x2 : vec_is self n f -> vec_is v1 n f1' -> vec_is v2 n f2' ->
    wp (let! v1 := lift (exec (v_mul_by_scalar_in_place x1) v1) in
        let! v2 := lift (exec (v_mul_by_scalar_in_place x2) v2) in v_add v1 v2) self
      (fun _ v => vec_is v n (fun i => f1' i * x1 + f2' i * x2)%F) (fun e _ => ul e) False.
  Proof.
    intros Hs H1 H2. apply wp_bind, wp_lift. eapply rwp_conseq; [eapply exec_pv, (v_mul_by_scalar_in_place_pw v1 n _ H1 x1)| | |intros []].
    2:{ intros e [U _]. exact U. }
    intros a [Ha _]. apply wp_bind, wp_lift. eapply rwp_conseq; [eapply exec_pv, (v_mul_by_scalar_in_place_pw v2 n _ H2 x2)| | |intros []].
    2:{ intros e [U _]. exact U. }
    intros b [Hb _]. eapply wp_pv; [apply (v_add_pw self a b n f _ _ Hs Ha Hb)|auto|]. intros k i v' _ _ _ _. exists k; auto.
  Qed.
  Definition interp_err (e : AhrsError) : Prop := is_utils e \/ e = LinErr InvalidAlpha \/ e = InvalidAquaInterpolationTreshold.
  (** the interpolated quaternion *)
  Definition interp (f : nat -> T) (alpha t : T) (v : Vec T) : Prop :=
    let id := quad f1 f0 f0 f0 in
    let theta := facos (fsum 4 (fun i => id i * f i)%F) in
    if (f 0 >? t)%F
    then exists u, vec_is u 4 (fun i => id i * (f1 - alpha) + f i * alpha)%F /\ v_normalize u = (v, Ok tt)
    else vec_is v 4 (fun i => id i * (fsin ((f1 - alpha) * theta) / fsin theta) + f i * (fsin (alpha * theta) / fsin theta))%F.
  Lemma interpolate_rwp q alpha t f : vec_is q 4 f ->
    rwp (aq_interpolate q alpha t) (fun v => (exists g, vec_is v 4 g) /\ in_range t f0 f1 = true /\ in_range alpha f0 f1 = true /\ interp f alpha t v)
      (fun e => (e = InvalidAquaInterpolationTreshold /\ in_range t f0 f1 = false) \/
                (in_range t f0 f1 = true /\ ((e = LinErr InvalidAlpha /\ in_range alpha f0 f1 = false) \/
                   (is_utils e /\ in_range alpha f0 f1 = true)))) False.
  Proof.
    intros Hq. unfold aq_interpolate. destruct (in_range t f0 f1) eqn:Et; cbn [negb]; [|cbn; auto].
    apply rwp_map_err. destruct identity_q as (i & -> & Hi). cbn [rbind]. unfold exec at 1.
    destruct (v_init_new 4 ltac:(lia)) as (s0 & -> & H0). cbn [rbind]. unfold q_get_qw. rewrite (q_get_is _ _ _ Hq) by lia. cbn [rbind].
    unfold interp. destruct (in_range alpha f0 f1) eqn:Ea.
    2:{ destruct (f 0 >? t)%F; apply wp_exec; [apply wp_bind|]; unfold wp, v_lerp, v_slerp; rewrite Ea; cbn; auto. }
    destruct (f 0 >? t)%F.
    - apply wp_exec, wp_bind. destruct (lerp_prefix s0 i q 4 _ _ _ alpha H0 Hi Hq Ea) as (a & b & Ha & Hb & E).
      eapply wp_fold; [exact E|]. eapply wp_conseq; [apply (combine_rwp s0 a b 4 _ _ _ _ _ H0 Ha Hb)| | |intros []].
      2:{ intros e s [k ->]. right. split; [auto|]. right. split; [exists k; auto|auto]. }
      intros [] u Hu. unfold wp. pose proof (v_normalize_pw u 4 _ Hu) as P. destruct (v_normalize u) as [v o] eqn:EN.
      destruct P as [(_ & E1 & H)|(j & k & _ & _ & _ & E1 & H)]; cbn [fst snd] in *; subst o.
      + split; [eauto|]. split; [auto|]. split; [auto|]. eauto.
      + right. split; [auto|]. right. split; [exists k; auto|auto].
    - apply wp_exec. destruct (slerp_prefix s0 i q 4 _ _ _ alpha H0 Hi Hq Ea) as (a & b & Ha & Hb & E).
      eapply wp_fold; [exact E|]. eapply wp_conseq; [apply (combine_rwp s0 a b 4 _ _ _ _ _ H0 Ha Hb)| | |intros []].
      + intros [] u Hu. split; [eauto|]. auto.
      + intros e s [k ->]. right. split; [auto|]. right. split; [exists k; auto|auto].
  Qed.
End Pure.

(** ** the update as a composition of pure stages *)
Section Stages.
  Context {A : Arith} {OK : ArithOk A}.
  Notation V := (Vec T).
  Notation M := (Mat T).
  (** gyrometer prediction *)
  Definition st_gyr (p q r : T) (att : V) (ts : T) : res AhrsError V :=
    let? _ := la (vec3 p q r) in
    let? omega := calculate_omega_matrix p q r in
    let? omega := la (exec (m_mul_by_scalar_in_place fhalf) omega) in
    let? derivative := la (let? am := v_convert_to_matrix att in m_mul_new omega am) in
    let? delta := la (m_col_to_vector derivative 0) in
    let? delta := la (exec (v_mul_by_scalar_in_place ts) delta) in
    la (exec (v_init 4 ;;! v_add att delta ;;! v_normalize) vnew).
  (** accelerometer quaternion in the predicted frame *)
  Definition st_acc (gyr_quat a_local : V) (temp : M) : res AhrsError (V * M) :=
    let? (a_global, temp) := la (to_global gyr_quat a_local temp) in
    let? gx := la (v_get a_global 0) in
    let? gy := la (v_get a_global 1) in
    let? gz := la (v_get a_global 2) in
    let? q := la (quat4 (acc_quat_of gx gy gz)) in Ok (q, temp).
  (** magnetometer quaternion in a given frame *)
  Definition st_mag (mq : T -> T -> T -> T * T * T * T) (quat m_local : V) (temp : M) : res AhrsError V :=
    let? (m_global, temp) := la (to_global quat m_local temp) in
    let? lx := la (v_get m_global 0) in
    let? ly := la (v_get m_global 1) in
    la (quat4 (mq lx ly (lx*lx + ly*ly)%F)).
  Definition mag_am (lx ly gamma : T) := if (lx >=? f0)%F then mag_quat_pos lx ly gamma else mag_quat_neg lx ly gamma.
  Definition gain_step (s : Aqua) (a_local : V) : res AhrsError T :=
    if aq_adaptive s then aq_calculate_adaptative_gain s (aq_alpha s) a_local (aq_g s) else Ok (aq_alpha s).
  Definition on_att (c : ST V LinalgError unit) (s : Aqua) : Aqua * res AhrsError unit :=
    let (v, o) := c (aq_attitude s) in (aq_put_attitude v s, la o).

  Lemma on_att_eq c s : aq_on_attitude c s = on_att c s.
  Proof. unfold aq_on_attitude, on_att, sla, smap_err, zoom. destruct (c (aq_attitude s)) as [v [[]|e|]]; reflexivity. Qed.
  Lemma put_alpha_same s : aq_put_alpha (aq_alpha s) s = s.
  Proof. destruct s; reflexivity. Qed.
  Definition rthen {X} (r : res AhrsError X) (s : Aqua) (k : X -> Aqua * res AhrsError unit) : Aqua * res AhrsError unit :=
    match r with Ok x => k x | Err e => (s, Err e) | Panic => (s, Panic) end.

  Lemma marg_eq a_local m_local temp s p q r :
    sensor_get Gyr 0 (aq_gyr s) = Ok p -> sensor_get Gyr 1 (aq_gyr s) = Ok q -> sensor_get Gyr 2 (aq_gyr s) = Ok r ->
    aq_update_marg a_local m_local temp s =
    rthen (st_gyr p q r (aq_attitude s) (aq_ts s)) s (fun gq =>
    rthen (st_acc gq a_local temp) s (fun at' =>
    rthen (gain_step s a_local) s (fun al =>
    let s1 := aq_put_alpha al s in
    rthen (aq_interpolate (fst at') al (aq_t_acc s)) s1 (fun ai =>
    let (s2, o) := on_att (q_mul gq ai) s1 in
    match o with
    | Ok _ =>
        rthen (st_mag mag_quat_pos (aq_attitude s2) m_local (snd at')) s2 (fun mq =>
        rthen (aq_interpolate mq (aq_beta s) (aq_t_mag s)) s2 (fun mi =>
        rthen (la (v_duplicate (aq_attitude s2))) s2 (fun dup => on_att (q_mul dup mi) s2)))
    | _ => (s2, o)
    end)))).
  Proof.
    intros Ep Eq Er. unfold aq_update_marg, st_gyr, st_acc, st_mag, gain_step, rthen.
    unfold reads, lift, modify, sret, sbind, rbind. rewrite Ep, Eq, Er.
    destruct (la (vec3 p q r)) as [w|e|]; [|reflexivity|reflexivity].
    destruct (calculate_omega_matrix p q r) as [om|e|]; [|reflexivity|reflexivity].
    destruct (la (exec (m_mul_by_scalar_in_place fhalf) om)) as [om'|e|]; [|reflexivity|reflexivity].
    match goal with |- context [match la ?x with _ => _ end] => destruct (la x) as [de|e|]; [|reflexivity|reflexivity] end.
    destruct (la (m_col_to_vector de 0)) as [dl|e|]; [|reflexivity|reflexivity].
    destruct (la (exec (v_mul_by_scalar_in_place (aq_ts s)) dl)) as [dl'|e|]; [|reflexivity|reflexivity].
    match goal with |- context [match la ?x with _ => _ end] => destruct (la x) as [gq|e|]; [|reflexivity|reflexivity] end.
    destruct (la (to_global gq a_local temp)) as [[ag temp']|e|]; [|reflexivity|reflexivity].
    destruct (la (v_get ag 0)) as [gx|e|]; [|reflexivity|reflexivity].
    destruct (la (v_get ag 1)) as [gy|e|]; [|reflexivity|reflexivity].
    destruct (la (v_get ag 2)) as [gz|e|]; [|reflexivity|reflexivity].
    destruct (la (quat4 (acc_quat_of gx gy gz))) as [aq|e|]; [|reflexivity|reflexivity]. cbn [fst snd].
    assert (K : forall al,
      match aq_interpolate aq al (aq_t_acc s) with
      | Ok ai =>
          let (s2, o) := aq_on_attitude (q_mul gq ai) (aq_put_alpha al s) in
          match o with
          | Ok _ => (let! (m_global, temp) := reads (fun s => la (to_global (aq_attitude s) m_local temp')) in
                     let! lx := lift (la (v_get m_global 0)) in
                     let! ly := lift (la (v_get m_global 1)) in
                     let gamma := (lx*lx + ly*ly)%F in
                     let! mag_quat := lift (la (quat4 (mag_quat_pos lx ly gamma))) in
                     let! mag_quat_interpolated := reads (fun s => aq_interpolate mag_quat (aq_beta s) (aq_t_mag s)) in
                     let! dup := reads (fun s => la (v_duplicate (aq_attitude s))) in
                     aq_on_attitude (q_mul dup mag_quat_interpolated)) s2
          | Err e => (s2, Err e)
          | Panic => (s2, Panic)
          end
      | Err e => (aq_put_alpha al s, Err e)
      | Panic => (aq_put_alpha al s, Panic)
      end =
      match aq_interpolate aq al (aq_t_acc s) with
      | Ok ai =>
          let (s2, o) := on_att (q_mul gq ai) (aq_put_alpha al s) in
          match o with
          | Ok _ =>
              rthen (st_mag mag_quat_pos (aq_attitude s2) m_local temp') s2 (fun mq =>
              rthen (aq_interpolate mq (aq_beta s) (aq_t_mag s)) s2 (fun mi =>
              rthen (la (v_duplicate (aq_attitude s2))) s2 (fun dup => on_att (q_mul dup mi) s2)))
          | _ => (s2, o)
          end
      | Err e => (aq_put_alpha al s, Err e)
      | Panic => (aq_put_alpha al s, Panic)
      end).
    { intros al. destruct (aq_interpolate aq al (aq_t_acc s)) as [ai|e|]; [|reflexivity|reflexivity].
      rewrite on_att_eq. unfold on_att at 1 2. destruct (q_mul gq ai (aq_attitude (aq_put_alpha al s))) as [v [[]|e|]]; [|reflexivity|reflexivity].
      cbn [la map_err]. unfold st_mag, rthen, reads, lift, sbind, rbind. cbn [aq_attitude aq_put_attitude aq_beta aq_t_mag aq_put_alpha].
      destruct (la (to_global v m_local temp')) as [[mg t3]|e|]; [|reflexivity|reflexivity].
      destruct (la (v_get mg 0)) as [lx|e|]; [|reflexivity|reflexivity].
      destruct (la (v_get mg 1)) as [ly|e|]; [|reflexivity|reflexivity].
      destruct (la (quat4 (mag_quat_pos lx ly (lx * lx + ly * ly)%F))) as [mq|e|]; [|reflexivity|reflexivity].
      change (aq_beta (aq_put_attitude v (aq_put_alpha al s))) with (aq_beta s). change (aq_t_mag (aq_put_attitude v (aq_put_alpha al s))) with (aq_t_mag s).
      change (aq_attitude (aq_put_attitude v (aq_put_alpha al s))) with v.
      destruct (aq_interpolate mq (aq_beta s) (aq_t_mag s)) as [mi|e|]; [|reflexivity|reflexivity].
      destruct (la (v_duplicate v)) as [dup|e|]; [|reflexivity|reflexivity]. apply on_att_eq. }
    destruct (aq_adaptive s) eqn:Ad.
    - destruct (aq_calculate_adaptative_gain s (aq_alpha s) a_local (aq_g s)) as [al|e|]; [|reflexivity|reflexivity].
      cbn [aq_alpha aq_t_acc aq_put_alpha]. rewrite <- K.
      destruct (aq_interpolate aq al (aq_t_acc s)) as [ai|e|]; reflexivity.
    - specialize (K (aq_alpha s)). cbv zeta. rewrite put_alpha_same in K. rewrite put_alpha_same. etransitivity; [|exact K].
      destruct (aq_interpolate aq (aq_alpha s) (aq_t_acc s)) as [ai|e|]; reflexivity.
  Qed.
  Lemma am_eq ax ay az m_local temp s :
    aq_update_am ax ay az m_local temp s =
    rthen (la (quat4 (acc_quat_of ax ay az))) s (fun aq =>
    rthen (st_mag mag_am aq m_local temp) s (fun mq => on_att (q_mul aq mq) s)).
  Proof.
    unfold aq_update_am, st_mag, rthen. unfold reads, lift, sbind, rbind.
    destruct (la (quat4 (acc_quat_of ax ay az))) as [aq|e|]; [|reflexivity|reflexivity].
    destruct (la (to_global aq m_local temp)) as [[mg t3]|e|]; [|reflexivity|reflexivity].
    destruct (la (v_get mg 0)) as [lx|e|]; [|reflexivity|reflexivity].
    destruct (la (v_get mg 1)) as [ly|e|]; [|reflexivity|reflexivity].
    unfold mag_am. destruct (la (quat4 _)) as [mq|e|]; [|reflexivity|reflexivity]. apply on_att_eq.
  Qed.
End Stages.

Section Upd.
  Context {A : Arith} {OK : ArithOk A}.
  Notation V := (Vec T).
  Notation M := (Mat T).
  Definition st_loc (a m : nat -> T) : res AhrsError ((T * T * T) * V * V * M) :=
    let? a_local := la (vec3 (a 0) (a 1) (a 2)) in
    let? n := la (v_calculate_norm a_local) in
    let? a3 := (if (n >? EPSILON)%F then
                  la (let? x := v_get a_local 0 in
                      let? y := v_get a_local 1 in
                      let? z := v_get a_local 2 in
                      Ok (x / n, y / n, z / n)%F)
                else Ok (a 0, a 1, a 2)) in
    let? m_local := la (vec3 (m 0) (m 1) (m 2)) in
    let? m_local := la (exec v_normalize m_local) in
    let? temp := la (exec (m_init 3 1) mnew) in
    Ok (a3, a_local, m_local, temp).
  Definition st_mode (mode : Mode) (x : (T * T * T) * V * V * M) : ST Aqua AhrsError unit :=
    let '(a3, a_local, m_local, temp) := x in
    let '(ax, ay, az) := a3 in
    match mode with
    | MARG => aq_update_marg a_local m_local temp
    | AM => aq_update_am ax ay az m_local temp
    end.
  Definition st_end (so : Aqua * res AhrsError unit) : Aqua * res AhrsError unit :=
    let (s, o) := so in match o with Ok _ => on_att v_normalize s | Err e => (s, Err e) | Panic => (s, Panic) end.

  Definition aq_sensors (s : Aqua) : Prop := sreach Gyr (aq_gyr s) /\ sreach Acc (aq_acc s) /\ sreach Mag (aq_mag s).
  Definition aq_inv (s : Aqua) (p : phase) : Prop :=
    aq_sensors s /\
    match p with
    | Fresh => aq_initialized s = false /\ aq_attitude s = vnew /\
        s_initialized (aq_gyr s) = false /\ s_initialized (aq_acc s) = false /\ s_initialized (aq_mag s) = false
    | Stuck => aq_initialized s = false /\ v_initialized (aq_attitude s) = true
    | Live => aq_initialized s = true /\ s_initialized (aq_gyr s) = (match aq_mode s with MARG => true | AM => false end) /\
        s_initialized (aq_acc s) = true /\ s_initialized (aq_mag s) = true /\ exists f, vec_is (aq_attitude s) 4 f
    end.
  Definition kept (s s' : Aqua) : Prop := aq_inv s' Live /\ aq_same_settings s s' /\ aq_same_configs s s'.

  (** one sensor update *)
  Lemma sens_wp k g c x y z : sreach k g -> sensor_get_config k g = Ok c ->
    let raw := raw3 x y z in
    wp (sensor_update k x y z) g
      (fun _ g' => (sreach k g' /\ s_initialized g' = true /\ sensor_get_config k g' = Ok c) /\
         (raw_finite raw /\ unbiased_finite c raw /\ corrected_finite k c raw) /\
         forall b, b < 3 -> sensor_get k b g' = Ok (corrected k c raw 3 b))
      (fun e g' => (sreach k g' /\ s_initialized g' = true /\ sensor_get_config k g' = Ok c) /\ is_utils e /\
         ~ (raw_finite raw /\ unbiased_finite c raw /\ corrected_finite k c raw)) False.
  Proof.
    intros HR Hc raw. assert (I : s_initialized g = true). { unfold sensor_get_config in Hc. destruct (s_initialized g); [auto|discriminate]. }
    pose proof (l_update A _ k g c raw HR Hc) as W. change (raw 0) with x in W; change (raw 1) with y in W; change (raw 2) with z in W.
    pose proof (sr_call k g (CUpdate x y z) HR) as HR'. cbn [do_call] in HR'. pose proof (sens_config k g x y z HR I c Hc) as [E1 E2].
    destruct (reach_is k g HR) as (c0 & r0 & cor & Hs). rewrite (get_config_is k g c0 r0 cor Hs I) in Hc. injection Hc as ->.
    pose proof (update_wp k g c r0 cor raw Hs I) as U. change (raw 0) with x in U; change (raw 1) with y in U; change (raw 2) with z in U. unfold wp in *.
    destruct (sensor_update k x y z g) as [g' [[]|e|]]; cbn [fst] in *; [| |tauto].
    - destruct U as (U1 & U2 & U3 & _). split; [auto|]. split; [auto|]. intros b Hb. destruct W as (W & _). rewrite (proj2 (W ltac:(auto)) b Hb). reflexivity.
    - split; [auto|]. split; [apply U|]. intros F. destruct W as (W & _). destruct (W F). discriminate.
  Qed.
  Lemma get_config_some k g : sreach k g -> s_initialized g = true -> exists c, sensor_get_config k g = Ok c.
  Proof. intros HR I. destruct (reach_is k g HR) as (c & raw & cor & Hs). exists c. eapply get_config_is; eauto. Qed.

  Definition finite_update (k : kind) (c : Config) (raw : nat -> T) : Prop := raw_finite raw /\ unbiased_finite c raw /\ corrected_finite k c raw.
  (** the sensors part of an update *)
  Definition gyr_stage (gx gy gz : option T) : ST Aqua AhrsError unit := fun self =>
    match aq_mode self with
    | MARG =>
        match gx, gy, gz with
        | Some gx, Some gy, Some gz => aq_on_gyr (sensor_update Gyr gx gy gz)
        | None, None, None => sthrow NoGyroRawMeasurements
        | _, _, _ => sthrow InvalidGyroRawMeasurements
        end
    | AM => sret tt
    end self.
  (** what the gyrometer then holds *)
  Definition gyr_ready (gx gy gz : option T) (s s3 : Aqua) : Prop :=
    match aq_mode s with
    | AM => aq_gyr s3 = aq_gyr s
    | MARG => exists x y z c, gx = Some x /\ gy = Some y /\ gz = Some z /\ sensor_get_config Gyr (aq_gyr s) = Ok c /\
        finite_update Gyr c (raw3 x y z) /\ forall b, b < 3 -> sensor_get Gyr b (aq_gyr s3) = Ok (corrected Gyr c (raw3 x y z) 3 b)
    end.
  Definition gyr_fails (gx gy gz : option T) (s : Aqua) : Prop :=
    match aq_mode s with
    | AM => False
    | MARG => exists x y z c, gx = Some x /\ gy = Some y /\ gz = Some z /\ sensor_get_config Gyr (aq_gyr s) = Ok c /\
        ~ finite_update Gyr c (raw3 x y z)
    end.
  Lemma sens_wp' k g c x y z : sreach k g -> sensor_get_config k g = Ok c ->
    wp (sensor_update k x y z) g
      (fun _ g' => (sreach k g' /\ s_initialized g' = true /\ sensor_get_config k g' = Ok c) /\
         finite_update k c (raw3 x y z) /\ forall b, b < 3 -> sensor_get k b g' = Ok (corrected k c (raw3 x y z) 3 b))
      (fun e g' => (sreach k g' /\ s_initialized g' = true /\ sensor_get_config k g' = Ok c) /\ is_utils e /\
         ~ finite_update k c (raw3 x y z)) False.
  Proof. exact (sens_wp k g c x y z). Qed.

  Lemma update_split gx gy gz ax ay az mx my mz s ca cm : aq_inv s Live ->
    sensor_get_config Acc (aq_acc s) = Ok ca -> sensor_get_config Mag (aq_mag s) = Ok cm ->
    let a := corrected Acc ca (raw3 ax ay az) 3 in
    let m := corrected Mag cm (raw3 mx my mz) 3 in
    let r := aq_update gx gy gz ax ay az mx my mz s in
    (aq_mode s = MARG /\ gx = None /\ gy = None /\ gz = None /\ r = (s, Err NoGyroRawMeasurements)) \/
    (aq_mode s = MARG /\ ~ (gx = None /\ gy = None /\ gz = None) /\ (gx = None \/ gy = None \/ gz = None) /\ r = (s, Err InvalidGyroRawMeasurements)) \/
    (exists s' e, r = (s', Err e) /\ is_utils e /\ kept s s' /\ aq_attitude s' = aq_attitude s /\ aq_alpha s' = aq_alpha s /\
       (gyr_fails gx gy gz s \/ ~ finite_update Acc ca (raw3 ax ay az) \/ ~ finite_update Mag cm (raw3 mx my mz))) \/
    (exists s3, kept s s3 /\ aq_attitude s3 = aq_attitude s /\ aq_alpha s3 = aq_alpha s /\ gyr_ready gx gy gz s s3 /\
       finite_update Acc ca (raw3 ax ay az) /\ finite_update Mag cm (raw3 mx my mz) /\
       r = rthen (st_loc a m) s3 (fun x => st_end (st_mode (aq_mode s) x s3))).
  Proof.
    intros IV Ha Hm a m r.
    assert (RE : r = aq_update gx gy gz ax ay az mx my mz s) by reflexivity. clearbody r.
    assert (REST : forall s1, aq_inv s1 Live -> aq_same_settings s s1 -> sensor_get_config Gyr (aq_gyr s1) = sensor_get_config Gyr (aq_gyr s) ->
      aq_acc s1 = aq_acc s -> aq_mag s1 = aq_mag s -> aq_attitude s1 = aq_attitude s -> aq_alpha s1 = aq_alpha s -> gyr_ready gx gy gz s s1 ->
      r = (aq_on_acc (sensor_update Acc ax ay az) ;;!
           aq_on_mag (sensor_update Mag mx my mz) ;;!
           let! ax := reads (fun s => sensor_get Acc 0 (aq_acc s)) in
           let! ay := reads (fun s => sensor_get Acc 1 (aq_acc s)) in
           let! az := reads (fun s => sensor_get Acc 2 (aq_acc s)) in
           let! a_local := lift (la (vec3 ax ay az)) in
           let! a_local_norm := lift (la (v_calculate_norm a_local)) in
           let! (ax, ay, az) := lift (
             if (a_local_norm >? EPSILON)%F then
               la (let? x := v_get a_local 0 in
                   let? y := v_get a_local 1 in
                   let? z := v_get a_local 2 in
                   Ok (x / a_local_norm, y / a_local_norm, z / a_local_norm)%F)
             else Ok (ax, ay, az)) in
           let! mx := reads (fun s => sensor_get Mag 0 (aq_mag s)) in
           let! my := reads (fun s => sensor_get Mag 1 (aq_mag s)) in
           let! mz := reads (fun s => sensor_get Mag 2 (aq_mag s)) in
           let! m_local := lift (la (vec3 mx my mz)) in
           let! m_local := lift (la (exec v_normalize m_local)) in
           let! temp := lift (la (exec (m_init 3 1) mnew)) in
           match aq_mode s with
           | MARG => aq_update_marg a_local m_local temp
           | AM => aq_update_am ax ay az m_local temp
           end ;;!
           aq_on_attitude v_normalize) s1 ->
      (exists s' e, r = (s', Err e) /\ is_utils e /\ kept s s' /\ aq_attitude s' = aq_attitude s /\ aq_alpha s' = aq_alpha s /\
         (gyr_fails gx gy gz s \/ ~ finite_update Acc ca (raw3 ax ay az) \/ ~ finite_update Mag cm (raw3 mx my mz))) \/
      (exists s3, kept s s3 /\ aq_attitude s3 = aq_attitude s /\ aq_alpha s3 = aq_alpha s /\ gyr_ready gx gy gz s s3 /\
         finite_update Acc ca (raw3 ax ay az) /\ finite_update Mag cm (raw3 mx my mz) /\
         r = rthen (st_loc a m) s3 (fun x => st_end (st_mode (aq_mode s) x s3)))).
    { intros s1 IV1 SS EG EA EM EAt EAl GR HR. destruct IV1 as ((R1 & R2 & R3) & I0 & I1 & I2 & I3 & f & Hf).
      pose proof SS as (SM & _).
      unfold sbind at 1 in HR. unfold aq_on_acc at 1, zoom in HR. rewrite EA in HR.
      pose proof (sens_wp' Acc (aq_acc s) ca ax ay az ltac:(apply IV) Ha) as WA. unfold wp in WA.
      destruct (sensor_update Acc ax ay az (aq_acc s)) as [acc' [[]|e|]]; [| |tauto].
      2:{ left. exists (aq_put_acc acc' s1), e. destruct WA as ((WA1 & WA2 & WA3) & WA4 & WA5). split; [exact HR|]. split; [exact WA4|].
          split; [|split; [exact EAt|split; [exact EAl|auto]]]. split; [split; [repeat split; assumption|split; [exact I0|split; [exact I1|split; [exact WA2|split; [exact I3|exists f; exact Hf]]]]]|]. split; [exact SS|].
          split; [exact EG|]. split; [unfold aq_get_accelerometer_config; cbn [aq_acc aq_put_acc]; rewrite WA3, Ha; reflexivity|unfold aq_get_magnetometer_config; cbn [aq_mag aq_put_acc]; rewrite EM; reflexivity]. }
      destruct WA as ((WA1 & WA2 & WA3) & WA4 & WA5).
      unfold sbind at 1 in HR. unfold aq_on_mag at 1, zoom in HR. cbn [aq_mag aq_put_acc] in HR. rewrite EM in HR.
      pose proof (sens_wp' Mag (aq_mag s) cm mx my mz ltac:(apply IV) Hm) as WM. unfold wp in WM.
      destruct (sensor_update Mag mx my mz (aq_mag s)) as [mag' [[]|e|]]; [| |tauto].
      2:{ left. exists (aq_put_mag mag' (aq_put_acc acc' s1)), e. destruct WM as ((WM1 & WM2 & WM3) & WM4 & WM5). split; [exact HR|]. split; [exact WM4|].
          split; [|split; [exact EAt|split; [exact EAl|auto]]]. split; [split; [repeat split; assumption|split; [exact I0|split; [exact I1|split; [exact WA2|split; [exact WM2|exists f; exact Hf]]]]]|]. split; [exact SS|].
          split; [exact EG|]. split; [unfold aq_get_accelerometer_config; cbn [aq_acc aq_put_acc aq_put_mag]; rewrite WA3, Ha; reflexivity|unfold aq_get_magnetometer_config; cbn [aq_mag aq_put_acc aq_put_mag]; rewrite WM3, Hm; reflexivity]. }
      destruct WM as ((WM1 & WM2 & WM3) & WM4 & WM5).
      right. exists (aq_put_mag mag' (aq_put_acc acc' s1)). split; [|split; [exact EAt|split; [exact EAl|split; [exact GR|split; [exact WA4|split; [exact WM4|]]]]]].
      { split; [split; [repeat split; assumption|split; [exact I0|split; [exact I1|split; [exact WA2|split; [exact WM2|exists f; exact Hf]]]]]|]. split; [exact SS|].
        split; [exact EG|]. split; [unfold aq_get_accelerometer_config; cbn [aq_acc aq_put_acc aq_put_mag]; rewrite WA3, Ha; reflexivity|unfold aq_get_magnetometer_config; cbn [aq_mag aq_put_acc aq_put_mag]; rewrite WM3, Hm; reflexivity]. }
      rewrite HR. clear HR. set (s3 := aq_put_mag mag' (aq_put_acc acc' s1)). unfold reads, lift, sbind, rthen, st_loc, rbind.
      change (aq_acc s3) with acc'. rewrite !WA5 by lia. fold a.
      destruct (la (vec3 (a 0) (a 1) (a 2))) as [al|e|]; [|reflexivity|reflexivity].
      destruct (la (v_calculate_norm al)) as [n|e|]; [|reflexivity|reflexivity].
      match goal with |- context [match (if ?b then ?x else ?y) with _ => _ end] => destruct (if b then x else y) as [[[x1 y1] z1]|e|]; [|reflexivity|reflexivity] end.
      change (aq_mag s3) with mag'. rewrite !WM5 by lia. fold m.
      destruct (la (vec3 (m 0) (m 1) (m 2))) as [ml|e|]; [|reflexivity|reflexivity].
      destruct (la (exec v_normalize ml)) as [ml'|e|]; [|reflexivity|reflexivity].
      destruct (la (exec (m_init 3 1) mnew)) as [t|e|]; [|reflexivity|reflexivity].
      unfold st_end, st_mode. destruct (aq_mode s).
      - destruct (aq_update_marg al ml' t s3) as [s4 [[]|e|]]; [apply on_att_eq|reflexivity|reflexivity].
      - destruct (aq_update_am x1 y1 z1 ml' t s3) as [s4 [[]|e|]]; [apply on_att_eq|reflexivity|reflexivity]. }
    pose proof IV as ((R1 & R2 & R3) & I0 & I1 & I2 & I3 & f & Hf).
    assert (SS0 : aq_same_settings s s) by (repeat split).
    unfold aq_update in RE. rewrite I0 in RE. cbn [negb] in RE.
    destruct (aq_mode s) eqn:EM.
    - destruct gx as [x|], gy as [y|], gz as [z|];
        try (right; left; split; [reflexivity|]; split; [intros (? & ? & ?); discriminate|]; split; [tauto|]; exact RE).
      2:{ left. split; [reflexivity|]. split; [reflexivity|]. split; [reflexivity|]. split; [reflexivity|exact RE]. }
      right; right. destruct (get_config_some Gyr (aq_gyr s) R1 I1) as (cg & Hg).
      pose proof (sens_wp' Gyr (aq_gyr s) cg x y z R1 Hg) as WG. unfold wp in WG.
      unfold sbind at 1 in RE. unfold aq_on_gyr at 1, zoom in RE.
      destruct (sensor_update Gyr x y z (aq_gyr s)) as [g' [[]|e|]] eqn:EU; [| |tauto].
      + destruct WG as ((WG1 & WG2 & WG3) & WG4 & WG5). apply (REST (aq_put_gyr g' s)); clear REST; try reflexivity.
        * split; [repeat split; assumption|]. split; [exact I0|]. split; [cbn [aq_gyr aq_put_gyr]; rewrite WG2; cbn [aq_mode aq_put_gyr]; rewrite EM; reflexivity|]. split; [exact I2|]. split; [exact I3|exists f; exact Hf].
        * exact SS0.
        * cbn [aq_gyr aq_put_gyr]. rewrite WG3, Hg. reflexivity.
        * unfold gyr_ready. rewrite EM. exists x, y, z, cg. auto 10.
        * exact RE.
      + left. destruct WG as ((WG1 & WG2 & WG3) & WG4 & WG5). exists (aq_put_gyr g' s), e. split; [exact RE|]. split; [exact WG4|].
        split; [|split; [reflexivity|split; [reflexivity|]]].
        * split; [split; [repeat split; assumption|split; [exact I0|split; [cbn [aq_gyr aq_put_gyr]; rewrite WG2; cbn [aq_mode aq_put_gyr]; rewrite EM; reflexivity|split; [exact I2|split; [exact I3|exists f; exact Hf]]]]]|].
          split; [exact SS0|]. split; [unfold aq_get_gyrometer_config; cbn [aq_gyr aq_put_gyr]; rewrite WG3, Hg; reflexivity|]. split; reflexivity.
        * left. unfold gyr_fails. rewrite EM. exists x, y, z, cg. auto 10.
    - right; right. apply (REST s); clear REST; try reflexivity; auto. unfold gyr_ready. rewrite EM. reflexivity.
  Qed.
End Upd.

Lemma la_Ok {X} (x : X) : la (Ok x) = Ok x.
Proof. reflexivity. Qed.
Lemma la_Err {X} e : la (B := X) (Err e) = Err (LinErr e).
Proof. reflexivity. Qed.
Ltac las := cbn [rbind]; repeat (first [rewrite la_Ok|rewrite la_Err]; cbn [rbind]).
Section Modes.
  Context {A : Arith} {OK : ArithOk A}.
  Notation V := (Vec T).
  Notation M := (Mat T).
  Definition nrm (n : nat) (f : nat -> T) : T := flush (fsqrt (fsum n (fun i => f i * f i)%F)).
  Definition vunit (n : nat) (f : nat -> T) (i : nat) : T := if (nrm n f >? EPSILON)%F then (f i / nrm n f)%F else f0.
  Definition a_unit (a : nat -> T) : T * T * T :=
    if (nrm 3 a >? EPSILON)%F then (a 0 / nrm 3 a, a 1 / nrm 3 a, a 2 / nrm 3 a)%F else (a 0, a 1, a 2).
  Lemma la_rwp {X} (r : res LinalgError X) Q (E : Prop) : rwp r Q (fun e => ul e /\ E) False -> rwp (la r) Q (fun e => is_utils e /\ E) False.
  Proof. intros H. apply rwp_map_err. eapply rwp_conseq; [exact H|auto| |intros []]. intros e [[k ->] X1]. split; [exists k; auto|auto]. Qed.
  Lemma loc_rwp a m : (forall i, i < 3 -> valid (a i)) -> (forall i, i < 3 -> valid (m i)) ->
    rwp (st_loc a m) (fun x => let '(a3, al, ml, t) := x in a3 = a_unit a /\ vec_is al 3 a /\ vec_is ml 3 (vunit 3 m) /\ exists g, mat_is t 3 1 g)
      (fun e => is_utils e /\ ~ (forall i, i < 3 -> valid (vunit 3 m i))) False.
  Proof.
    intros Va Vm. unfold st_loc.
    destruct (w3_ok a Va) as (al & Ea & Ha). change (vec3 (a 0) (a 1) (a 2) = Ok al) in Ea. rewrite Ea.
    las. rewrite (v_norm_is al 3 a Ha). las. rewrite !(vi_get _ _ _ Ha) by lia. las.
    fold (nrm 3 a).
    match goal with |- context [rbind (if ?b then Ok ?x else Ok ?y)] => replace (if b then @Ok AhrsError _ x else Ok y) with (@Ok AhrsError _ (a_unit a)) end.
    2:{ unfold a_unit. destruct (nrm 3 a >? EPSILON)%F; reflexivity. }
    cbn [rbind].
    destruct (w3_ok m Vm) as (ml & Em & Hm). change (vec3 (m 0) (m 1) (m 2) = Ok ml) in Em. rewrite Em. las.
    apply rwp_bind. eapply rwp_conseq; [eapply la_rwp, exec_pv, (v_normalize_pw ml 3 m Hm)| |auto|intros []].
    intros u [Hu _]. destruct (m_init_new 3 1 ltac:(lia) ltac:(lia)) as (t & Et & Ht). unfold exec. rewrite Et. las. cbn [rwp].
    split; [reflexivity|]. split; [exact Ha|]. split; [exact Hu|eauto].
  Qed.
  Definition gyr_pred (w f : nat -> T) (ts : T) (i : nat) : T := (f i + fsum 4 (fun j => omega_t w i j * fhalf * f j) * ts)%F.
  Lemma gyr_rwp w att ts f : (forall i, i < 3 -> valid (w i)) -> vec_is att 4 f ->
    rwp (st_gyr (w 0) (w 1) (w 2) att ts)
      (fun v => (exists g, vec_is v 4 g) /\ exists u, vec_is u 4 (gyr_pred w f ts) /\ v_normalize u = (v, Ok tt)) is_utils False.
  Proof.
    intros Vw Hf. unfold st_gyr.
    destruct (w3_ok w Vw) as (wv & Ew & Hw). change (vec3 (w 0) (w 1) (w 2) = Ok wv) in Ew. rewrite Ew. las.
    apply rwp_bind. eapply rwp_conseq; [apply (omega_ok w Vw)| |intros e [U _]; exact U|intros []].
    intros om [Hom _]. apply rwp_bind, rwp_map_err. eapply rwp_conseq; [eapply rwp_pm, (m_mul_by_scalar_in_place_pw om 4 4 _ Hom fhalf)| |intros e [[k ->] _]; exists k; auto|intros []].
    intros om' [Hom' _]. destruct (v_convert_ok att 4 f Hf) as (am & -> & Ham). cbn [rbind].
    pose proof (l_mul_new A _ om' am 4 4 4 1 _ _ Hom' Ham) as P. cbn [Nat.eqb] in P.
    destruct P as [(VV & a & -> & Haa)|(i & j & n & e & Hi & Hj & Hn & B & ->)]; las; cbn [rwp]; [|exists e; auto].
    pose proof (col_to_vector_spec _ _ a _ _ _ Haa 0) as C. cbn [Nat.leb] in C. destruct C as (d & -> & Hd). las.
    apply rwp_bind, rwp_map_err. eapply rwp_conseq; [eapply exec_pv, (v_mul_by_scalar_in_place_pw d 4 _ Hd ts)| |intros e [[k ->] _]; exists k; auto|intros []].
    intros d' [Hd' _]. apply rwp_map_err. destruct (v_init_new 4 ltac:(lia)) as (s0 & E0 & H0). rewrite (exec_step _ _ _ _ E0).
    apply wp_exec, wp_bind. eapply wp_pv; [eapply v_add_pw; [exact H0|exact Hf|exact Hd']| |].
    2:{ intros k i v' _ _ _ _. exists k; auto. }
    intros u Hu _. unfold wp. pose proof (v_normalize_pw u 4 _ Hu) as P. destruct (v_normalize u) as [v o] eqn:EN.
    destruct P as [(_ & E1 & H)|(j & k & _ & _ & _ & E1 & H)]; cbn [fst snd] in *; subst o.
    - split; [eauto|]. exists u. split; [exact Hu|exact EN].
    - exists k; auto.
  Qed.
  Lemma acc_rwp gq al temp f a t : vec_is gq 4 f -> vec_is al 3 a -> mat_is temp 3 1 t ->
    rwp (st_acc gq al temp) (fun x => let b := tog f a in
        (let '(q0, q1, q2, q3) := acc_quat_of (b 0) (b 1) (b 2) in vec_is (fst x) 4 (quad q0 q1 q2 q3)) /\ exists t', mat_is (snd x) 3 1 t') is_utils False.
  Proof.
    intros Hq Ha Ht. unfold st_acc. apply rwp_bind, rwp_map_err. eapply rwp_conseq; [apply (to_global_rwp gq al temp f a t Hq Ha Ht)| |intros e [[k ->] _]; exists k; auto|intros []].
    intros [g tm] (Hg & Htm & _). cbn [fst snd] in *. rewrite !(vi_get _ _ _ Hg) by lia. las.
    destruct (acc_quat_of (tog f a 0) (tog f a 1) (tog f a 2)) as [[[q0 q1] q2] q3]. apply rwp_bind, rwp_map_err.
    eapply rwp_conseq; [apply (quat4_ok q0 q1 q2 q3)| |intros e [[k ->] _]; exists k; auto|intros []].
    intros v [Hv _]. cbn [rwp fst snd]. split; [exact Hv|eauto].
  Qed.
  Lemma mag_rwp mq q ml temp f a t : vec_is q 4 f -> vec_is ml 3 a -> mat_is temp 3 1 t ->
    rwp (st_mag mq q ml temp) (fun v => let b := tog f a in
        (let '(q0, q1, q2, q3) := mq (b 0) (b 1) (b 0 * b 0 + b 1 * b 1)%F in vec_is v 4 (quad q0 q1 q2 q3))) is_utils False.
  Proof.
    intros Hq Ha Ht. unfold st_mag. apply rwp_bind, rwp_map_err. eapply rwp_conseq; [apply (to_global_rwp q ml temp f a t Hq Ha Ht)| |intros e [[k ->] _]; exists k; auto|intros []].
    intros [g tm] (Hg & Htm & _). cbn [fst snd] in *. rewrite !(vi_get _ _ _ Hg) by lia. las.
    destruct (mq (tog f a 0) (tog f a 1) (tog f a 0 * tog f a 0 + tog f a 1 * tog f a 1)%F) as [[[q0 q1] q2] q3]. apply rwp_map_err.
    eapply rwp_conseq; [apply (quat4_ok q0 q1 q2 q3)| |intros e [[k ->] _]; exists k; auto|intros []].
    intros v [Hv _]. exact Hv.
  Qed.
  Lemma gain_is s al a : vec_is al 3 a ->
    gain_step s al =
      if aq_adaptive s then if (aq_t2 s <=? aq_t1 s)%F then Err InvalidAdaptiveGainTresholds
                            else Ok (new_gain (aq_t1 s) (aq_t2 s) (aq_g s) (aq_alpha s) (nrm 3 a))
      else Ok (aq_alpha s).
  Proof.
    intros Ha. unfold gain_step, aq_calculate_adaptative_gain. rewrite (v_norm_is al 3 a Ha). reflexivity.
  Qed.

  Definition moved (s s' : Aqua) : Prop :=
    exists v al, (exists f, vec_is v 4 f) /\ s' = aq_put_attitude v (aq_put_alpha al s) /\
      (aq_adaptive s = false \/ aq_mode s = AM -> al = aq_alpha s).
  Lemma put_att_same s : aq_put_attitude (aq_attitude s) s = s.
  Proof. destruct s; reflexivity. Qed.
  Lemma moved_refl s : aq_inv s Live -> moved s s.
  Proof. intros (_ & _ & _ & _ & _ & Hf). exists (aq_attitude s), (aq_alpha s). split; [exact Hf|]. split; [rewrite put_alpha_same, put_att_same; reflexivity|auto]. Qed.
  Lemma moved_kept s s' : aq_inv s Live -> moved s s' -> kept s s'.
  Proof.
    intros ((R1 & R2 & R3) & I0 & I1 & I2 & I3 & _) (v & al & Hf & -> & _). split; [|split].
    - split; [repeat split; assumption|]. split; [exact I0|]. split; [exact I1|]. split; [exact I2|]. split; [exact I3|exact Hf].
    - repeat split.
    - repeat split.
  Qed.
  Lemma kept_trans s s1 s2 : kept s s1 -> kept s1 s2 -> kept s s2.
  Proof.
    intros (_ & S1 & C1) (I & S2 & C2). split; [exact I|]. split.
    - destruct S1 as (? & ? & ? & ? & ? & ? & ? & ? & ? & ? & ?), S2 as (? & ? & ? & ? & ? & ? & ? & ? & ? & ? & ?). unfold aq_same_settings. repeat split; congruence.
    - destruct C1 as (? & ? & ?), C2 as (? & ? & ?). unfold aq_same_configs. repeat split; congruence.
  Qed.
  Definition out_ok (s : Aqua) (r : Aqua * res AhrsError unit) : Prop :=
    moved s (fst r) /\ match snd r with Ok _ => True | Err e => aq_err e | Panic => False end.
  Lemma rthen_ok {X} (r : res AhrsError X) (Q : X -> Prop) s0 s k : rwp r Q is_utils False -> moved s0 s -> (forall x, Q x -> out_ok s0 (k x)) -> out_ok s0 (rthen r s k).
  Proof. intros H Hm K. unfold rthen. destruct r as [x|e|]; cbn [rwp] in H; [auto|split; cbn; [auto|left; exact H]|tauto]. Qed.
  Lemma rthen_ok' {X} (r : res AhrsError X) (Q : X -> Prop) s0 s k : rwp r Q aq_err False -> moved s0 s -> (forall x, Q x -> out_ok s0 (k x)) -> out_ok s0 (rthen r s k).
  Proof. intros H Hm K. unfold rthen. destruct r as [x|e|]; cbn [rwp] in H; [auto|split; cbn; [auto|exact H]|tauto]. Qed.
  Lemma on_att_mul s f a b fa fb (Q : Aqua * res AhrsError unit -> Prop) : vec_is (aq_attitude s) 4 f -> vec_is a 4 fa -> vec_is b 4 fb ->
    (forall v, vec_is v 4 (prodf fa fb) -> Q (aq_put_attitude v s, Ok tt)) ->
    (forall v e g, vec_is v 4 g -> is_utils e -> Q (aq_put_attitude v s, Err e)) -> Q (on_att (q_mul a b) s).
  Proof.
    intros Hs Ha Hb HQ HX. unfold on_att. pose proof (q_mul_pw (aq_attitude s) a b f fa fb Hs Ha Hb) as P.
    destruct (q_mul a b (aq_attitude s)) as [v o]. destruct P as [(_ & E1 & H)|(j & k & _ & _ & _ & E1 & H)]; cbn [fst snd] in *; subst o; las.
    - auto.
    - eapply HX; [exact H|exists k; auto].
  Qed.
  Lemma interp_ok q alpha t f : vec_is q 4 f -> rwp (aq_interpolate q alpha t) (fun v => exists g, vec_is v 4 g) aq_err False.
  Proof.
    intros H. eapply rwp_conseq; [apply (interpolate_rwp q alpha t f H)|intros v (G & _); exact G| |intros []].
    intros e [[-> _]|[_ [[-> _]|[U _]]]]; unfold aq_err; auto.
  Qed.
  Definition quad_of (q : T * T * T * T) : nat -> T := let '(q0, q1, q2, q3) := q in quad q0 q1 q2 q3.

  Lemma marg_ok al ml t s w a m tt0 : aq_inv s Live -> aq_mode s = MARG -> (forall i, i < 3 -> valid (w i)) -> (forall b, b < 3 -> sensor_get Gyr b (aq_gyr s) = Ok (w b)) ->
    vec_is al 3 a -> vec_is ml 3 m -> mat_is t 3 1 tt0 -> out_ok s (aq_update_marg al ml t s).
  Proof.
    intros IV MM Vw Hg Ha Hm Ht. rewrite (marg_eq al ml t s (w 0) (w 1) (w 2)) by (apply Hg; lia).
    pose proof IV as (_ & _ & _ & _ & _ & f & Hf). pose proof (moved_refl s IV) as MR.
    eapply rthen_ok; [apply (gyr_rwp w _ (aq_ts s) f Vw Hf)|exact MR|]. intros gq [[fg Hgq] _].
    eapply rthen_ok; [apply (acc_rwp gq al t fg a tt0 Hgq Ha Ht)|exact MR|]. intros [aq t'] [Haq [tt1 Ht']]. cbn [fst snd] in *.
    assert (Haq' : exists g, vec_is aq 4 g). { destruct (acc_quat_of _ _ _) as [[[? ?] ?] ?]. eauto. } clear Haq. destruct Haq' as [faq Haq].
    rewrite (gain_is s al a Ha). eapply rthen_ok' with (Q := fun x => aq_adaptive s = false -> x = aq_alpha s).
    { destruct (aq_adaptive s); [destruct (aq_t2 s <=? aq_t1 s)%F|]; cbn [rwp]; auto; [right; auto|intros; discriminate]. }
    { exact MR. }
    intros alp Halp. cbv zeta.
    assert (M1 : forall v g, vec_is v 4 g -> moved s (aq_put_attitude v (aq_put_alpha alp s))).
    { intros v g Hv. exists v, alp. split; [eauto|]. split; [reflexivity|]. intros [X|X]; [auto|congruence]. }
    pose proof (M1 _ _ Hf) as M2. change (aq_attitude s) with (aq_attitude (aq_put_alpha alp s)) in M2. rewrite put_att_same in M2.
    eapply rthen_ok'; [apply (interp_ok aq alp (aq_t_acc s) _ Haq)|exact M2|]. intros ai [fai Hai].
    set (s1 := aq_put_alpha alp s) in *. change (vec_is (aq_attitude s1) 4 f) in Hf. revert MR M1 M2 Halp.
    apply (on_att_mul s1 f gq ai fg fai (fun r => moved s s -> (forall v g, vec_is v 4 g -> moved s (aq_put_attitude v s1)) -> moved s s1 -> (aq_adaptive s = false -> alp = aq_alpha s) ->
        out_ok s (let (s2, o) := r in match o with Ok _ => _ | _ => (s2, o) end)) Hf Hgq Hai).
    2:{ intros v e g Hv U MR M1 M2 Halp. split; cbn; [eapply M1; eauto|left; exact U]. }
    intros v Hv MR M1 M2 Halp. pose proof (M1 v _ Hv) as M3.
    eapply rthen_ok; [apply (mag_rwp mag_quat_pos (aq_attitude (aq_put_attitude v s1)) ml t' _ m tt1 Hv Hm Ht')|exact M3|]. intros mq Hmq.
    assert (Hmq' : exists g, vec_is mq 4 g). { cbv zeta in Hmq. destruct (mag_quat_pos _ _ _) as [[[? ?] ?] ?]. eauto. } clear Hmq. destruct Hmq' as [fmq Hmq].
    eapply rthen_ok'; [apply (interp_ok mq (aq_beta s) (aq_t_mag s) _ Hmq)|exact M3|]. intros mi [fmi Hmi].
    destruct (v_duplicate_ok (aq_attitude (aq_put_attitude v s1)) 4 _ Hv) as (dup & -> & Hd). las. cbn [rthen].
    apply (on_att_mul (aq_put_attitude v s1) _ dup mi _ fmi (fun r => out_ok s r) Hv Hd Hmi).
    - intros v' Hv'. split; cbn [fst snd]; [|exact I]. exact (M1 v' _ Hv').
    - intros v' e g Hv' U. split; cbn [fst snd]; [exact (M1 v' _ Hv')|left; exact U].
  Qed.
  Lemma am_ok ax ay az ml t s m tt0 : aq_inv s Live -> vec_is ml 3 m -> mat_is t 3 1 tt0 ->
    let r := aq_update_am ax ay az ml t s in
    out_ok s r /\ (snd r <> Ok tt -> exists e, snd r = Err e /\ is_utils e) /\ aq_alpha (fst r) = aq_alpha s.
  Proof.
    intros IV Hm Ht r. subst r. rewrite am_eq. pose proof IV as (_ & _ & _ & _ & _ & f & Hf). pose proof (moved_refl s IV) as MR.
    destruct (acc_quat_of ax ay az) as [[[q0 q1] q2] q3]. pose proof (quat4_ok q0 q1 q2 q3) as Q4.
    destruct (quat4 (q0, q1, q2, q3)) as [aq|e|]; cbn [rwp] in Q4; [| |tauto]; las. cbn [rthen].
    2:{ destruct Q4 as [[k ->] _]. split; [split; cbn; [auto|left; exists k; auto]|]. cbn. split; [|auto]. intros _. exists (LinErr (UtilsErr k)). split; [auto|exists k; auto]. }
    destruct Q4 as [Haq _]. pose proof (mag_rwp mag_am aq ml t _ m tt0 Haq Hm Ht) as MQ.
    destruct (st_mag mag_am aq ml t) as [mq|e|]; cbn [rwp] in MQ; [| |tauto]; cbn [rthen].
    2:{ split; [split; cbn; [auto|left; exact MQ]|]. cbn. split; [|auto]. intros _. eauto. }
    assert (Hmq' : exists g, vec_is mq 4 g). { cbv zeta in MQ. destruct (mag_am _ _ _) as [[[? ?] ?] ?]. eauto. } clear MQ. destruct Hmq' as [fmq Hmq].
    assert (M1 : forall v g, vec_is v 4 g -> moved s (aq_put_attitude v s)).
    { intros v g Hv. exists v, (aq_alpha s). split; [eauto|]. rewrite put_alpha_same. auto. }
    apply (on_att_mul s f aq mq _ fmq (fun r => out_ok s r /\ (snd r <> Ok tt -> exists e, snd r = Err e /\ is_utils e) /\ aq_alpha (fst r) = aq_alpha s) Hf Haq Hmq).
    - intros v' Hv'. cbn [fst snd]. split; [split; [exact (M1 v' _ Hv')|exact I]|]. split; [congruence|reflexivity].
    - intros v' e g Hv' U. cbn [fst snd]. split; [split; [exact (M1 v' _ Hv')|left; exact U]|]. split; [eauto|reflexivity].
  Qed.
  Lemma end_ok s r : out_ok s r -> out_ok s (st_end r) /\
    (snd (st_end r) = Ok tt -> snd r = Ok tt /\ exists v f, vec_is v 4 f /\ v_normalize v = (aq_attitude (fst (st_end r)), Ok tt) /\ v = aq_attitude (fst r) /\ vec_is (aq_attitude (fst (st_end r))) 4 (vunit 4 f)).
  Proof.
    intros [(v & al & [f Hf] & E & Hal) Ho]. destruct r as [s1 [[]|e|]]; cbn [fst snd] in *; [| |tauto].
    2:{ unfold st_end. split; [split; cbn [fst snd]; [exists v, al; eauto|exact Ho]|]. intros; discriminate. }
    unfold st_end, on_att. assert (EA : aq_attitude s1 = v) by (rewrite E; reflexivity). rewrite EA. pose proof (v_normalize_pw v 4 f Hf) as P.
    destruct (v_normalize v) as [v' o] eqn:EN. destruct P as [(_ & E1 & H)|(j & k & _ & _ & _ & E1 & H)]; cbn [fst snd] in *; subst o; las.
    - split; [|intros _; split; [reflexivity|exists v, f; split; [exact Hf|split; [exact EN|split; [reflexivity|exact H]]]]].
      split; cbn [fst snd]; [|exact I]. exists v', al. split; [eauto|]. split; [rewrite E; reflexivity|exact Hal].
    - split; [|intros; discriminate]. split; cbn [fst snd]; [|left; exists k; auto]. exists v', al. split; [eauto|]. split; [rewrite E; reflexivity|exact Hal].
  Qed.
End Modes.

Section Life.
  Context {A : Arith} {OK : ArithOk A}.
  Lemma update_out gx gy gz ax ay az mx my mz s : aq_inv s Live ->
    let r := aq_update gx gy gz ax ay az mx my mz s in
    kept s (fst r) /\ (aq_adaptive s = false \/ aq_mode s = AM -> aq_alpha (fst r) = aq_alpha s) /\
    match snd r with
    | Ok _ => exists v f, vec_is v 4 f /\ v_normalize v = (aq_attitude (fst r), Ok tt) /\ vec_is (aq_attitude (fst r)) 4 (vunit 4 f)
    | Err e => aq_err e \/ e = NoGyroRawMeasurements \/ e = InvalidGyroRawMeasurements
    | Panic => False
    end.
  Proof.
    intros IV r. pose proof IV as ((R1 & R2 & R3) & I0 & I1 & I2 & I3 & f & Hf).
    destruct (get_config_some Acc _ R2 I2) as (ca & Ha). destruct (get_config_some Mag _ R3 I3) as (cm & Hm).
    assert (KR : kept s s). { split; [exact IV|]. split; repeat split. }
    pose proof (update_split gx gy gz ax ay az mx my mz s ca cm IV Ha Hm) as U. cbv zeta in U. fold r in U. clearbody r.
    destruct U as [(_ & _ & _ & _ & ->)|[(_ & _ & _ & ->)|[(s' & e & -> & U & K & EA & EL & _)|(s3 & K & EA & EL & GR & FA & FM & ->)]]]; cbn [fst snd].
    - auto.
    - auto.
    - split; [exact K|]. split; [auto|]. left. left. exact U.
    - assert (VA : forall i, i < 3 -> valid (corrected Acc ca (raw3 ax ay az) 3 i)) by (intros i Hi; apply FA; lia).
      assert (VM : forall i, i < 3 -> valid (corrected Mag cm (raw3 mx my mz) 3 i)) by (intros i Hi; apply FM; lia).
      pose proof K as (IV3 & SS & SC). pose proof (loc_rwp _ _ VA VM) as L. unfold rthen.
      destruct (st_loc _ _) as [[[[a3 al] ml] t]|e|]; cbn [rwp] in L; [| |tauto].
      2:{ cbn [fst snd]. split; [exact K|]. split; [auto|]. left; left; apply L. }
      destruct L as (-> & Hal & Hml & g & Ht).
      assert (O : out_ok s3 (st_mode (aq_mode s) (a_unit (corrected Acc ca (raw3 ax ay az) 3), al, ml, t) s3)).
      { unfold st_mode. unfold gyr_ready in GR. destruct (a_unit _) as [[x y] z]. destruct (aq_mode s) eqn:EM.
        - destruct GR as (x1 & y1 & z1 & cg & _ & _ & _ & _ & FG & Hg). eapply (marg_ok al ml t s3 (corrected Gyr cg (raw3 x1 y1 z1) 3)); eauto.
          + destruct SS as (-> & _). exact EM.
          + intros i Hi. apply FG; lia.
        - eapply am_ok; eauto. }
      destruct (end_ok _ _ O) as [OE Q]. set (r := st_end _) in *. clearbody r. destruct OE as [MV Ho].
      split; [eapply kept_trans; [exact K|apply moved_kept; auto]|]. split.
      { destruct MV as (v & al' & _ & -> & X). intros C. cbn. rewrite X, EL; [reflexivity|]. destruct SS as (-> & _ & -> & _). exact C. }
      destruct r as [s4 [[]|e|]]; cbn [fst snd] in *; [| |tauto].
      + destruct (Q eq_refl) as (_ & v & f' & H1 & H2 & _ & H3). eauto 10.
      + auto.
  Qed.
  Lemma cfg_finite_dec c : cfg_finite c \/ ~ cfg_finite c.
  Proof.
    assert (D : forall l : list T, (forall x, In x l -> valid x) \/ ~ (forall x, In x l -> valid x)).
    { induction l as [|x l IH]; [left; intros ? []|]. destruct (valid_dec x) as [V|(k & B)]; [destruct IH as [IH|IH]|].
      - left. intros y [<-|Hy]; auto.
      - right. intros H. apply IH. intros; apply H; right; auto.
      - right. intros H. apply (bad_Some_not _ _ B). apply H. left; auto. }
    apply D.
  Qed.
  Lemma sinit_wp k g c : sreach k g -> s_initialized g = false ->
    wp (sensor_init k c) g (fun _ g' => cfg_finite c /\ sreach k g' /\ s_initialized g' = true /\ sensor_get_config k g' = Ok c)
      (fun e g' => is_utils e /\ ~ cfg_finite c /\ sreach k g') False.
  Proof.
    intros HR I. pose proof (sr_call k g (CInit c) HR) as HR'. pose proof (l_config A _ k g c HR (CInit c) (or_introl (conj I eq_refl))) as LC. cbn [do_call] in *.
    unfold wp. destruct (sensor_init k c g) as [g' o]. destruct LC as [L1 L2]. cbn [fst] in HR'.
    destruct (cfg_finite_dec c) as [D|D].
    - destruct (L1 D) as (-> & I' & GC). auto.
    - destruct (L2 D) as (e & -> & U). auto.
  Qed.
  Lemma aq_init_fresh a s : aq_inv s Fresh ->
    wp (aq_init_with a) s
      (fun _ s' => args_ok a /\ aq_inv s' Live /\ vec_is (aq_attitude s') 4 (args_attitude a) /\
         aq_mode s' = ia_mode a /\ aq_ts s' = ia_ts a /\ aq_adaptive s' = ia_adaptive a /\ aq_alpha s' = ia_alpha a /\ aq_beta s' = ia_beta a /\
         aq_t1 s' = ia_t1 a /\ aq_t2 s' = ia_t2 a /\ aq_t_acc s' = ia_t_acc a /\ aq_t_mag s' = ia_t_mag a /\
         aq_g s' = unwrap_or (ia_g a) (aq_g s) /\ aq_h s' = unwrap_or (ia_h a) (aq_h s) /\
         (ia_mode a = MARG -> exists c, ia_gyr a = Some c /\ aq_get_gyrometer_config s' = Ok c) /\
         aq_get_accelerometer_config s' = Ok (ia_acc a) /\ aq_get_magnetometer_config s' = Ok (ia_mag a))
      (fun e s' => ~ args_ok a /\ bad_init a e /\ aq_inv s' Stuck) False.
  Proof.
    intros ((R1 & R2 & R3) & I0 & EA & I1 & I2 & I3). unfold aq_init_with, aq_init. eapply wp_fold; [rewrite I0; reflexivity|].
    apply wp_bind. unfold aq_on_attitude at 1, sla. apply wp_smap_err, wp_zoom. rewrite EA.
    eapply wp_v_init; [lia|]. intros v0 H0.
    apply wp_bind. unfold aq_on_attitude at 1, sla. apply wp_smap_err, wp_zoom. cbn [aq_attitude aq_put_attitude].
    unfold wp at 1. unfold q_fill_identity. destruct (q_fillq_ok v0 _ f1 f0 f0 f0 H0) as (v1 & -> & H1); try apply ok_f0; try apply ok_f1.
    set (s1 := aq_put_attitude v1 (aq_put_attitude v0 s)).
    set (pre := fun s' => aq_sensors s' /\ aq_initialized s' = false /\ aq_g s' = aq_g s /\ aq_h s' = aq_h s /\ vec_is (aq_attitude s') 4 (quad f1 f0 f0 f0)).
    assert (ST : forall s', pre s' -> aq_inv s' Stuck).
    { intros s' (P1 & P2 & _ & _ & P3). split; [exact P1|]. split; [exact P2|]. apply P3. }
    set (am := fun s' => s_initialized (aq_acc s') = true /\ s_initialized (aq_mag s') = true /\ cfg_finite (ia_acc a) /\ cfg_finite (ia_mag a) /\
         aq_get_accelerometer_config s' = Ok (ia_acc a) /\ aq_get_magnetometer_config s' = Ok (ia_mag a)).
    assert (AMS : forall s1 (Q : unit -> Aqua -> Prop), pre s1 -> s_initialized (aq_acc s1) = false -> s_initialized (aq_mag s1) = false ->
      (forall s', pre s' -> am s' -> aq_gyr s' = aq_gyr s1 -> Q tt s') ->
      wp (aq_on_acc (sensor_init Acc (ia_acc a)) ;;! aq_on_mag (sensor_init Mag (ia_mag a))) s1 Q (fun e s' => ~ args_ok a /\ bad_init a e /\ aq_inv s' Stuck) False).
    { clear s1. intros s1 Q ((P1 & P2 & P3) & P4 & P5 & P6 & P7) J2 J3 HQ. apply wp_bind. unfold aq_on_acc. apply wp_zoom.
      eapply wp_conseq; [apply (sinit_wp Acc _ (ia_acc a) P2 J2)| | |intros []].
      2:{ intros e g' (U & N & HR). split; [intros (_ & X & _); auto|]. split; [left; exact U|]. apply ST. split; [split; [exact P1|split; [exact HR|exact P3]]|]. auto. }
      intros [] acc' (C1 & C2 & C3 & C4). unfold aq_on_mag. apply wp_zoom. cbn [aq_mag aq_put_acc].
      eapply wp_conseq; [apply (sinit_wp Mag _ (ia_mag a) P3 J3)| | |intros []].
      2:{ intros e g' (U & N & HR). split; [intros (_ & _ & X & _); auto|]. split; [left; exact U|]. apply ST. split; [split; [exact P1|split; [exact C2|exact HR]]|]. auto. }
      intros [] mag' (D1 & D2 & D3 & D4). apply HQ.
      - split; [split; [exact P1|split; [exact C2|exact D2]]|]. auto.
      - unfold am. auto 10.
      - reflexivity. }
    assert (P1 : pre s1). { split; [split; [exact R1|split; [exact R2|exact R3]]|]. split; [exact I0|]. split; [reflexivity|]. split; [reflexivity|exact H1]. }
    assert (FIN : forall s2, pre s2 -> am s2 ->
      (ia_mode a = MARG -> exists c, ia_gyr a = Some c /\ cfg_finite c /\ s_initialized (aq_gyr s2) = true /\ aq_get_gyrometer_config s2 = Ok c) -> (ia_mode a = AM -> s_initialized (aq_gyr s2) = false) ->
      wp (match ia_qw a, ia_qx a, ia_qy a, ia_qz a with
          | Some qw, Some qx, Some qy, Some qz => aq_on_attitude (q_fillq qw qx qy qz)
          | None, None, None, None => sret tt
          | _, _, _, _ => sthrow InvalidInitQuaternion
          end ;;!
          modify (fun s =>
            mkAqua (ia_mode a) (aq_gyr s) (aq_acc s) (aq_mag s) (aq_attitude s) (ia_ts a) (ia_adaptive a) (ia_alpha a) (ia_beta a)
              (ia_t1 a) (ia_t2 a) (ia_t_acc a) (ia_t_mag a) (unwrap_or (ia_g a) (aq_g s)) (unwrap_or (ia_h a) (aq_h s)) true)) s2
      (fun _ s' => args_ok a /\ aq_inv s' Live /\ vec_is (aq_attitude s') 4 (args_attitude a) /\
         aq_mode s' = ia_mode a /\ aq_ts s' = ia_ts a /\ aq_adaptive s' = ia_adaptive a /\ aq_alpha s' = ia_alpha a /\ aq_beta s' = ia_beta a /\
         aq_t1 s' = ia_t1 a /\ aq_t2 s' = ia_t2 a /\ aq_t_acc s' = ia_t_acc a /\ aq_t_mag s' = ia_t_mag a /\
         aq_g s' = unwrap_or (ia_g a) (aq_g s) /\ aq_h s' = unwrap_or (ia_h a) (aq_h s) /\
         (ia_mode a = MARG -> exists c, ia_gyr a = Some c /\ aq_get_gyrometer_config s' = Ok c) /\
         aq_get_accelerometer_config s' = Ok (ia_acc a) /\ aq_get_magnetometer_config s' = Ok (ia_mag a))
      (fun e s' => ~ args_ok a /\ bad_init a e /\ aq_inv s' Stuck) False).
    { intros s2 PS (A1 & A2 & A3 & A4 & A5 & A6) HG HG'. apply wp_bind.
      assert (GO : forall s3, pre s2 -> aq_sensors s3 -> aq_gyr s3 = aq_gyr s2 -> aq_acc s3 = aq_acc s2 -> aq_mag s3 = aq_mag s2 -> aq_g s3 = aq_g s -> aq_h s3 = aq_h s ->
        vec_is (aq_attitude s3) 4 (args_attitude a) -> 
        ((ia_qw a = None /\ ia_qx a = None /\ ia_qy a = None /\ ia_qz a = None) \/
          exists w x y z, ia_qw a = Some w /\ ia_qx a = Some x /\ ia_qy a = Some y /\ ia_qz a = Some z /\ quat_finite w x y z) ->
        let s' := mkAqua (ia_mode a) (aq_gyr s3) (aq_acc s3) (aq_mag s3) (aq_attitude s3) (ia_ts a) (ia_adaptive a) (ia_alpha a) (ia_beta a)
              (ia_t1 a) (ia_t2 a) (ia_t_acc a) (ia_t_mag a) (unwrap_or (ia_g a) (aq_g s3)) (unwrap_or (ia_h a) (aq_h s3)) true in
        args_ok a /\ aq_inv s' Live /\ vec_is (aq_attitude s') 4 (args_attitude a) /\
         aq_mode s' = ia_mode a /\ aq_ts s' = ia_ts a /\ aq_adaptive s' = ia_adaptive a /\ aq_alpha s' = ia_alpha a /\ aq_beta s' = ia_beta a /\
         aq_t1 s' = ia_t1 a /\ aq_t2 s' = ia_t2 a /\ aq_t_acc s' = ia_t_acc a /\ aq_t_mag s' = ia_t_mag a /\
         aq_g s' = unwrap_or (ia_g a) (aq_g s) /\ aq_h s' = unwrap_or (ia_h a) (aq_h s) /\
         (ia_mode a = MARG -> exists c, ia_gyr a = Some c /\ aq_get_gyrometer_config s' = Ok c) /\
         aq_get_accelerometer_config s' = Ok (ia_acc a) /\ aq_get_magnetometer_config s' = Ok (ia_mag a)).
      { intros s3 _ SS E1 E2 E3 E4 E5 HV HQ s'. unfold aq_get_gyrometer_config, aq_get_accelerometer_config, aq_get_magnetometer_config in *. subst s'. cbn [aq_gyr aq_acc aq_mag aq_attitude aq_mode aq_ts aq_adaptive aq_alpha aq_beta aq_t1 aq_t2 aq_t_acc aq_t_mag aq_g aq_h].
        rewrite ?E1, ?E2, ?E3, ?E4, ?E5.
        split. { split; [intros EM; destruct (HG EM) as (c & ? & ? & _); eauto|]. auto. }
        split. { split; [unfold aq_sensors in *; cbn; rewrite ?E1, ?E2, ?E3 in *; exact SS|]. cbn. rewrite ?E1, ?E2, ?E3. split; [reflexivity|].
                 split; [destruct (ia_mode a); [destruct (HG eq_refl) as (c & _ & _ & ? & _); auto|auto]|]. eauto. }
        split; [exact HV|]. do 11 (split; [reflexivity|]). split; [intros EM; destruct (HG EM) as (c & ? & _ & _ & ?); eauto|]. auto. }
      pose proof PS as (PS1 & PS2 & PS3 & PS4 & PS5). unfold args_attitude in *.
      destruct (ia_qw a) as [w|] eqn:Ew, (ia_qx a) as [x|] eqn:Ex, (ia_qy a) as [y|] eqn:Ey, (ia_qz a) as [z|] eqn:Ez;
        try (apply wp_sthrow; split; [intros (_ & _ & _ & [(? & ? & ? & ?)|(? & ? & ? & ? & ? & ? & ? & ? & _)]); congruence|];
             split; [right; right; split; [reflexivity|]; rewrite Ew, Ex, Ey, Ez; split; [first [left; discriminate|right; left; discriminate|right; right; left; discriminate|right; right; right; discriminate]|tauto]|auto]).
      - unfold aq_on_attitude, sla. apply wp_smap_err, wp_zoom. eapply wp_pv; [apply (q_fillq_pw _ _ w x y z PS5)| |].
        + intros v' Hv V. apply wp_modify. apply GO; auto. right. exists w, x, y, z. pose proof (V 0 ltac:(lia)). pose proof (V 1 ltac:(lia)). pose proof (V 2 ltac:(lia)). pose proof (V 3 ltac:(lia)). unfold quat_finite; auto 10.
        + intros k i v' Hi B V H. split.
          * intros (_ & _ & _ & [(? & ? & ? & ?)|(w' & x' & y' & z' & E1 & E2 & E3 & E4 & QF)]); [congruence|].
            rewrite Ew in E1. rewrite Ex in E2. rewrite Ey in E3. rewrite Ez in E4. injection E1 as <-. injection E2 as <-. injection E3 as <-. injection E4 as <-.
            destruct QF as (W & X & Y & Z). apply (bad_Some_not _ _ B). do 4 (destruct i as [|i]; [assumption|]). lia.
          * split; [left; exists k; auto|]. split; [exact PS1|]. split; [exact PS2|]. apply H.
      - apply wp_sret, wp_modify. apply GO; auto 10. }
    apply wp_bind. destruct (ia_mode a) eqn:EM.
    - destruct (ia_gyr a) as [cg|] eqn:EG.
      2:{ apply wp_sthrow. split; [intros (X & _); destruct (X EM) as (c & Hc & _); congruence|]. split; [right; left; auto|apply ST; exact P1]. }
      apply wp_bind. unfold aq_on_gyr. apply wp_zoom. eapply wp_conseq; [apply (sinit_wp Gyr (aq_gyr s1) cg R1 I1)| | |intros []].
      2:{ intros e g' (U & N & HR). split; [intros (X & _); destruct (X EM) as (c & Hc & F); rewrite EG in Hc; injection Hc as <-; auto|]. split; [left; exact U|]. apply ST.
          split; [split; [exact HR|split; [exact R2|exact R3]]|]. split; [exact I0|]. split; [reflexivity|]. split; [reflexivity|exact H1]. }
      intros [] g' (C1 & C2 & C3 & C4). apply AMS; [|exact I2|exact I3|].
      + split; [split; [exact C2|split; [exact R2|exact R3]]|]. split; [exact I0|]. split; [reflexivity|]. split; [reflexivity|exact H1].
      + intros s' PS' AM' E. apply FIN; auto. { intros _. exists cg. split; [reflexivity|]. unfold aq_get_gyrometer_config. rewrite E. auto. } intros; discriminate.
    - apply AMS; auto. intros s' PS' AM' E. apply FIN; auto; [intros; discriminate|]. intros _. rewrite E. exact I1.
  Qed.
End Life.

Section Hist.
  Context {A : Arith} {OK : ArithOk A}.
  Lemma aq_init_stuck a s : aq_inv s Stuck -> aq_init_with a s = (s, Err (LinErr AlreadyInit)).
  Proof.
    intros (_ & I0 & I1). unfold aq_init_with, aq_init. rewrite I0. unfold sbind at 1. rewrite on_att_eq. unfold on_att, v_init. rewrite I1.
    cbn [la map_err]. rewrite put_att_same. reflexivity.
  Qed.
  Lemma aq_init_live a s : aq_inv s Live -> aq_init_with a s = (s, Err AquaFilterAlreadyInit).
  Proof. intros (_ & I0 & _). unfold aq_init_with, aq_init. rewrite I0. reflexivity. Qed.
  Lemma aq_update_not gx gy gz ax ay az mx my mz s : aq_initialized s = false -> aq_update gx gy gz ax ay az mx my mz s = (s, Err AquaFilterNotInit).
  Proof. intros I. unfold aq_update. rewrite I. reflexivity. Qed.
  Lemma args_ok_dec a : args_ok a \/ ~ args_ok a.
  Proof.
    unfold args_ok.
    assert (DQ : ((ia_qw a = None /\ ia_qx a = None /\ ia_qy a = None /\ ia_qz a = None) \/
     exists w x y z, ia_qw a = Some w /\ ia_qx a = Some x /\ ia_qy a = Some y /\ ia_qz a = Some z /\ quat_finite w x y z) \/
     ~ ((ia_qw a = None /\ ia_qx a = None /\ ia_qy a = None /\ ia_qz a = None) \/
     exists w x y z, ia_qw a = Some w /\ ia_qx a = Some x /\ ia_qy a = Some y /\ ia_qz a = Some z /\ quat_finite w x y z)).
    { destruct (ia_qw a) as [w|], (ia_qx a) as [x|], (ia_qy a) as [y|], (ia_qz a) as [z|];
        try (right; intros [(? & ? & ? & ?)|(? & ? & ? & ? & ? & ? & ? & ? & _)]; discriminate).
      - destruct (valid_dec w) as [Vw|(k & B)], (valid_dec x) as [Vx|(k' & B')], (valid_dec y) as [Vy|(k'' & B'')], (valid_dec z) as [Vz|(k3 & B3)];
          first [left; right; exists w, x, y, z; unfold quat_finite; auto 10; fail|
                 right; intros [(? & ? & ? & ?)|(w' & x' & y' & z' & E1 & E2 & E3 & E4 & (W1 & W2 & W3 & W4))]; [discriminate|];
                 injection E1 as <-; injection E2 as <-; injection E3 as <-; injection E4 as <-;
                 first [exact (bad_Some_not _ _ B W1)|exact (bad_Some_not _ _ B' W2)|exact (bad_Some_not _ _ B'' W3)|exact (bad_Some_not _ _ B3 W4)]].
      - left. left. auto. }
    destruct (cfg_finite_dec (ia_acc a)) as [D1|D1]; [|tauto]. destruct (cfg_finite_dec (ia_mag a)) as [D2|D2]; [|tauto].
    destruct DQ as [DQ|DQ]; [|tauto].
    assert (DG : (ia_mode a = MARG -> exists c, ia_gyr a = Some c /\ cfg_finite c) \/ ~ (ia_mode a = MARG -> exists c, ia_gyr a = Some c /\ cfg_finite c)).
    { destruct (ia_mode a); [|left; intros; discriminate]. destruct (ia_gyr a) as [c|].
      - destruct (cfg_finite_dec c) as [D|D]; [left; eauto|]. right. intros X. destruct (X eq_refl) as (c' & E & F). injection E as <-. auto.
      - right. intros X. destruct (X eq_refl) as (c' & E & F). discriminate. }
    tauto.
  Qed.
  Lemma aq_new_inv s : aq_new = Ok s -> aq_inv s Fresh.
  Proof.
    intros E. unfold aq_new in E. destruct (new_ok (A := A) Gyr) as (g & Eg & _ & Ig). rewrite Eg in E. cbn [rbind] in E. injection E as <-.
    split; [split; [|split]; apply sr_new; exact Eg|]. auto.
  Qed.
  (** re-configuring a sensor *)
  Lemma aq_set_inv s p (k : kind) c : aq_inv s p ->
    let q := match k with Gyr => QSetGyr c | Acc => QSetAcc c | Mag => QSetMag c end in
    let old := match k with Gyr => aq_gyr s | Acc => aq_acc s | Mag => aq_mag s end in
    let r := aq_do q s in
    aq_inv (fst r) p /\ aq_attitude (fst r) = aq_attitude s /\ aq_same_settings s (fst r) /\ aq_alpha (fst r) = aq_alpha s /\
    (s_initialized old = false -> r = (s, Err (not_init k))) /\
    (s_initialized old = true ->
       (cfg_finite c -> snd r = Ok tt /\
          match k with Gyr => aq_get_gyrometer_config (fst r) | Acc => aq_get_accelerometer_config (fst r) | Mag => aq_get_magnetometer_config (fst r) end = Ok c) /\
       (~ cfg_finite c -> exists e, snd r = Err e /\ is_utils e)) /\
    (k <> Gyr -> aq_gyr (fst r) = aq_gyr s) /\ (k <> Acc -> aq_acc (fst r) = aq_acc s) /\ (k <> Mag -> aq_mag (fst r) = aq_mag s).
  Proof.
    intros IV q old r. pose proof IV as ((R1 & R2 & R3) & IV').
    assert (RO : sreach k old) by (destruct k; assumption).
    pose proof (sr_call k old (CSet c) RO) as RS. cbn [do_call] in RS.
    pose proof (proj1 (l_lifecycle A _ k old c f0 f0 f0 0 (CSet c) RO)) as LF.
    pose proof (proj1 (proj2 (l_lifecycle A _ k old c f0 f0 f0 0 (CSet c) RO))) as LT.
    pose proof (l_config A _ k old c RO (CSet c)) as LC. cbn [do_call] in LC, LT.
    assert (RI : s_initialized (fst (sensor_set_config k c old)) = s_initialized old).
    { destruct (s_initialized old) eqn:E; [apply LT; reflexivity|]. destruct (LF eq_refl) as (_ & -> & _). exact E. }
    assert (INV : forall put : Sensor -> Aqua -> Aqua,
      (k = Gyr -> put = aq_put_gyr) -> (k = Acc -> put = aq_put_acc) -> (k = Mag -> put = aq_put_mag) ->
      aq_inv (put (fst (sensor_set_config k c old)) s) p).
    { intros put P1 P2 P3. destruct k; [rewrite P1 by auto|rewrite P2 by auto|rewrite P3 by auto]; cbv zeta beta iota in old;
        (split; [split; [|split]; first [assumption|exact RS]|]; destruct p; cbn [aq_gyr aq_acc aq_mag aq_attitude aq_initialized aq_mode aq_put_gyr aq_put_acc aq_put_mag]; rewrite ?RI; exact IV'). }
    assert (PG : aq_put_gyr (aq_gyr s) s = s) by (destruct s; reflexivity).
    assert (PA : aq_put_acc (aq_acc s) s = s) by (destruct s; reflexivity).
    assert (PM : aq_put_mag (aq_mag s) s = s) by (destruct s; reflexivity).
    assert (CF : s_initialized old = true -> (cfg_finite c -> snd (sensor_set_config k c old) = Ok tt /\ sensor_get_config k (fst (sensor_set_config k c old)) = Ok c) /\
                 (~ cfg_finite c -> exists e, snd (sensor_set_config k c old) = Err e /\ is_utils e)).
    { intros I. specialize (LC (or_intror (conj I eq_refl))). destruct (sensor_set_config k c old) as [g' o]. cbn [fst snd]. destruct LC as [L1 L2].
      split; [intros F; destruct (L1 F) as (? & _ & ?); auto|exact L2]. }
    assert (NF : s_initialized old = false -> sensor_set_config k c old = (old, Err (not_init k))) by (intros I; apply (LF I)).
    clear LF LT LC.
    assert (RR : r = ((match k with Gyr => aq_put_gyr | Acc => aq_put_acc | Mag => aq_put_mag end) (fst (sensor_set_config k c old)) s, snd (sensor_set_config k c old))).
    { subst r q old. destruct k; cbn [aq_do]; unfold aq_set_gyrometer_config, aq_set_accelerometer_config, aq_set_magnetometer_config, aq_on_gyr, aq_on_acc, aq_on_mag, zoom;
        match goal with |- (let (_, _) := ?x in _) = _ => destruct x; reflexivity end. }
    rewrite RR. clear RR r. cbn [fst snd].
    split; [apply INV; intros ->; reflexivity|].
    destruct k; (split; [reflexivity|]; split; [repeat split|]; split; [reflexivity|]; split; [intros I; rewrite (NF I); cbn [fst snd]; subst old; cbv beta iota zeta; rewrite ?PG, ?PA, ?PM; reflexivity|]; split; [exact CF|]);
      (split; [|split]); intros N; first [reflexivity|congruence].
  Qed.
  Lemma aq_hist_inv s p : aq_hist s p -> aq_inv s p.
  Proof.
    induction 1 as [s E|s p q p' H IH N].
    - apply aq_new_inv; exact E.
    - inversion N as [a NA Hp Hq Hp'|a YA Hp Hq Hp'|p0 a NF Hp Hq Hp'|p0 q0 NI Hp Hq Hp']; subst.
      + cbn [aq_do]. pose proof (aq_init_fresh a s IH) as W. unfold wp in W. destruct (aq_init_with a s) as [s' [[]|e|]]; cbn [fst]; tauto.
      + cbn [aq_do]. pose proof (aq_init_fresh a s IH) as W. unfold wp in W. destruct (aq_init_with a s) as [s' [[]|e|]]; cbn [fst]; tauto.
      + cbn [aq_do]. destruct p'; [congruence| |]; [rewrite aq_init_stuck by auto|rewrite aq_init_live by auto]; exact IH.
      + destruct q as [a|c|c|c|gx gy gz ax ay az mx my mz].
        * exfalso. apply NI. exists a; auto.
        * apply (aq_set_inv s p' Acc c IH).
        * apply (aq_set_inv s p' Gyr c IH).
        * apply (aq_set_inv s p' Mag c IH).
        * cbn [aq_do]. destruct p'.
          -- rewrite aq_update_not by apply IH. exact IH.
          -- rewrite aq_update_not by apply IH. exact IH.
          -- apply (update_out gx gy gz ax ay az mx my mz s IH).
  Qed.
  Lemma aq_get_attitude_live s : aq_inv s Live -> exists v f, aq_get_attitude s = Ok v /\ vec_is (aq_attitude s) 4 f /\ vec_is v 4 f.
  Proof.
    intros (_ & I0 & _ & _ & _ & f & Hf). unfold aq_get_attitude. rewrite I0. cbn [negb]. destruct (v_duplicate_ok _ _ _ Hf) as (v & -> & Hv). exists v, f. auto.
  Qed.
End Hist.

(*@ C46_lifecycle *)
(** C46, for every arithmetic and after any history of calls.  Before the first [init]: updates, [get_attitude] and every access to a
    sensor configuration are refused and change nothing; [init] succeeds exactly when its arguments satisfy [args_ok], and then
    the filter has recorded them and [get_attitude] returns the quaternion given (the identity when none is).
    VIOLATION: a filter whose first [init] failed is stuck, every later [init] fails.  After a successful [init]: another [init] is
    refused, updates never panic, keep all settings and sensor configurations, and keep the gain unless it is adaptive. *)
Lemma l_aq_lifecycle :
  forall (A : Arith) (OK : ArithOk A) (s : Aqua) (p : phase), aq_hist s p ->
  forall (a : aq_args) (gx gy gz : option T) (ax ay az mx my mz : T) (c : Config),
  match p with
  | Fresh =>
      aq_update gx gy gz ax ay az mx my mz s = (s, Err AquaFilterNotInit) /\ aq_get_attitude s = Err AquaFilterNotInit /\
      aq_get_gyrometer_config s = Err GyrNotInit /\ aq_get_accelerometer_config s = Err AccNotInit /\ aq_get_magnetometer_config s = Err MagNotInit /\
      aq_set_gyrometer_config c s = (s, Err GyrNotInit) /\ aq_set_accelerometer_config c s = (s, Err AccNotInit) /\ aq_set_magnetometer_config c s = (s, Err MagNotInit) /\
      let (s', o) := aq_init_with a s in
      (args_ok a -> o = Ok tt /\ (exists v, aq_get_attitude s' = Ok v /\ vec_is v 4 (args_attitude a)) /\
         aq_mode s' = ia_mode a /\ aq_ts s' = ia_ts a /\ aq_adaptive s' = ia_adaptive a /\ aq_alpha s' = ia_alpha a /\ aq_beta s' = ia_beta a /\
         aq_t1 s' = ia_t1 a /\ aq_t2 s' = ia_t2 a /\ aq_t_acc s' = ia_t_acc a /\ aq_t_mag s' = ia_t_mag a /\
         aq_g s' = unwrap_or (ia_g a) (aq_g s) /\ aq_h s' = unwrap_or (ia_h a) (aq_h s) /\
         (ia_mode a = MARG -> exists c, ia_gyr a = Some c /\ aq_get_gyrometer_config s' = Ok c) /\
         aq_get_accelerometer_config s' = Ok (ia_acc a) /\ aq_get_magnetometer_config s' = Ok (ia_mag a)) /\
      (~ args_ok a -> exists e, o = Err e /\ bad_init a e)
  | Stuck =>
      aq_update gx gy gz ax ay az mx my mz s = (s, Err AquaFilterNotInit) /\ aq_get_attitude s = Err AquaFilterNotInit /\
      aq_init_with a s = (s, Err (LinErr AlreadyInit))
  | Live =>
      aq_init_with a s = (s, Err AquaFilterAlreadyInit) /\ (exists v f, aq_get_attitude s = Ok v /\ vec_is v 4 f) /\
      let (s', o) := aq_update gx gy gz ax ay az mx my mz s in
      o <> Panic /\ aq_same_settings s s' /\ aq_same_configs s s' /\ (aq_adaptive s = false \/ aq_mode s = AM -> aq_alpha s' = aq_alpha s) /\
      exists v f, aq_get_attitude s' = Ok v /\ vec_is v 4 f
  end.
Proof.
  intros A OK s p H a gx gy gz ax ay az mx my mz c. pose proof (aq_hist_inv s p H) as IV. destruct p.
  - pose proof IV as (_ & I0 & _ & I1 & I2 & I3). split; [apply aq_update_not; exact I0|]. split; [unfold aq_get_attitude; rewrite I0; reflexivity|].
    unfold aq_get_gyrometer_config, aq_get_accelerometer_config, aq_get_magnetometer_config, sensor_get_config. rewrite I1, I2, I3. do 3 (split; [reflexivity|]).
    destruct (aq_set_inv s Fresh Gyr c IV) as (_ & _ & _ & _ & X & _). split; [exact (X I1)|]. clear X.
    destruct (aq_set_inv s Fresh Acc c IV) as (_ & _ & _ & _ & X & _). split; [exact (X I2)|]. clear X.
    destruct (aq_set_inv s Fresh Mag c IV) as (_ & _ & _ & _ & X & _). split; [exact (X I3)|]. clear X.
    pose proof (aq_init_fresh a s IV) as W. unfold wp in W. destruct (aq_init_with a s) as [s' [[]|e|]]; [| |tauto].
    + destruct W as (AO & L & Hv & W). split; [|tauto]. intros _. split; [reflexivity|]. split; [|exact W].
      destruct (aq_get_attitude_live s' L) as (v & f & E & Hf & Hv'). exists v. split; [exact E|]. eapply vec_is_ext; [exact Hv'|].
      intros i Hi. rewrite (vec_is_eq _ _ _ i Hf Hi), <- (vec_is_eq _ _ _ i Hv Hi). reflexivity.
    + destruct W as (N & B & _). split; [tauto|]. intros _. eauto.
  - pose proof IV as (_ & I0 & _). split; [apply aq_update_not; exact I0|]. split; [unfold aq_get_attitude; rewrite I0; reflexivity|]. apply aq_init_stuck; exact IV.
  - split; [apply aq_init_live; exact IV|]. split; [destruct (aq_get_attitude_live s IV) as (v & f & E & _ & Hv); eauto|].
    pose proof (update_out gx gy gz ax ay az mx my mz s IV) as U. destruct (aq_update gx gy gz ax ay az mx my mz s) as [s' o]. cbv zeta in U. cbn [fst snd] in U.
    destruct U as ((L & SS & SC) & AL & O). split; [intros ->; exact O|]. split; [exact SS|]. split; [exact SC|]. split; [exact AL|].
    destruct (aq_get_attitude_live s' L) as (v & f & E & _ & Hv). eauto.
Qed.

(*@ C46_configure *)
(** C46: once the filter is initialised a sensor in use can be re-configured with any finite configuration, which
    is then the one read back; a configuration that is not finite is refused.  The gyrometer of a filter in mode AM is
    not in use: it cannot be configured.  Nothing but that sensor changes. *)
Lemma l_aq_configure :
  forall (A : Arith) (OK : ArithOk A) (s : Aqua) (c : Config), aq_hist s Live ->
  (let (s', o) := aq_set_accelerometer_config c s in
   (cfg_finite c -> o = Ok tt /\ aq_get_accelerometer_config s' = Ok c) /\ (~ cfg_finite c -> exists e, o = Err e /\ is_utils e) /\
   aq_same_settings s s' /\ aq_alpha s' = aq_alpha s /\ aq_attitude s' = aq_attitude s /\ aq_gyr s' = aq_gyr s /\ aq_mag s' = aq_mag s) /\
  (let (s', o) := aq_set_magnetometer_config c s in
   (cfg_finite c -> o = Ok tt /\ aq_get_magnetometer_config s' = Ok c) /\ (~ cfg_finite c -> exists e, o = Err e /\ is_utils e) /\
   aq_same_settings s s' /\ aq_alpha s' = aq_alpha s /\ aq_attitude s' = aq_attitude s /\ aq_gyr s' = aq_gyr s /\ aq_acc s' = aq_acc s) /\
  match aq_mode s with
  | AM => aq_set_gyrometer_config c s = (s, Err GyrNotInit) /\ aq_get_gyrometer_config s = Err GyrNotInit
  | MARG =>
      let (s', o) := aq_set_gyrometer_config c s in
      (cfg_finite c -> o = Ok tt /\ aq_get_gyrometer_config s' = Ok c) /\ (~ cfg_finite c -> exists e, o = Err e /\ is_utils e) /\
      aq_same_settings s s' /\ aq_alpha s' = aq_alpha s /\ aq_attitude s' = aq_attitude s /\ aq_acc s' = aq_acc s /\ aq_mag s' = aq_mag s
  end.
Proof.
  intros A OK s c H. pose proof (aq_hist_inv s Live H) as IV. pose proof IV as (_ & I0 & I1 & I2 & I3 & _). split; [|split].
  - destruct (aq_set_inv s Live Acc c IV) as (_ & X1 & X2 & X3 & _ & X4 & X5 & _ & X6). cbn [aq_do] in *.
    destruct (aq_set_accelerometer_config c s) as [s' o]. cbn [fst snd] in *. destruct (X4 I2) as [Y1 Y2].
    split; [exact Y1|]. split; [exact Y2|]. split; [exact X2|]. split; [exact X3|]. split; [exact X1|]. split; [apply X5|apply X6]; discriminate.
  - destruct (aq_set_inv s Live Mag c IV) as (_ & X1 & X2 & X3 & _ & X4 & X5 & X6 & _). cbn [aq_do] in *.
    destruct (aq_set_magnetometer_config c s) as [s' o]. cbn [fst snd] in *. destruct (X4 I3) as [Y1 Y2].
    split; [exact Y1|]. split; [exact Y2|]. split; [exact X2|]. split; [exact X3|]. split; [exact X1|]. split; [apply X5|apply X6]; discriminate.
  - destruct (aq_set_inv s Live Gyr c IV) as (_ & X1 & X2 & X3 & X0 & X4 & _ & X5 & X6). cbn [aq_do] in *.
    destruct (aq_mode s) eqn:EM.
    + destruct (aq_set_gyrometer_config c s) as [s' o]. cbn [fst snd] in *. destruct (X4 I1) as [Y1 Y2].
      split; [exact Y1|]. split; [exact Y2|]. split; [exact X2|]. split; [exact X3|]. split; [exact X1|]. split; [apply X5|apply X6]; discriminate.
    + split; [exact (X0 I1)|]. unfold aq_get_gyrometer_config, sensor_get_config. rewrite I1. reflexivity.
Qed.

(** the argument records used in the examples and witnesses *)
Definition args32 (lm : Libm) (mode : Mode) (g : option (Config (A := F32 lm))) : aq_args (A := F32 lm) :=
  mkArgs (A := F32 lm) mode None None None None g default_config default_config (lit (Arith := F32 lm) 1 100) false
    (lit (Arith := F32 lm) 1 100) (lit (Arith := F32 lm) 1 100) (lit (Arith := F32 lm) 1 10) (lit (Arith := F32 lm) 2 10)
    (lit (Arith := F32 lm) 9 10) (lit (Arith := F32 lm) 9 10) None None.
Lemma default_finite lm : cfg_finite (A := F32 lm) default_config.
Proof. intros x Hx. cbn in Hx. repeat (destruct Hx as [<-|Hx]; [first [apply (ok_f0 (A := F32 lm))|apply (ok_f1 (A := F32 lm))]|]). destruct Hx. Qed.
Lemma aq_fresh lm : exists s : Aqua (A := F32 lm), aq_hist s Fresh.
Proof.
  destruct (new_ok (A := F32 lm) Gyr) as (g & Eg & _ & Ig).
  eexists. apply qh_new. unfold aq_new. rewrite Eg. reflexivity.
Qed.
Lemma later_stuck {A : Arith} {OK : ArithOk A} s s' : aq_inv s Stuck -> aq_later s s' -> aq_inv s' Stuck.
Proof.
  intros H L. induction L as [|s' q L IH]; [exact H|]. destruct q as [a|c|c|c|gx gy gz ax ay az mx my mz].
  - cbn [aq_do]. rewrite aq_init_stuck by exact IH. exact IH.
  - apply (aq_set_inv s' Stuck Acc c IH).
  - apply (aq_set_inv s' Stuck Gyr c IH).
  - apply (aq_set_inv s' Stuck Mag c IH).
  - cbn [aq_do]. rewrite aq_update_not by apply IH. exact IH.
Qed.

(*@ C46_stuck_refuted *)
(** C46, violation: on a new filter, forget the gyrometer configuration in one [init] in mode MARG (error NoGyroconfig): whatever
    is called afterwards, no [init] ever succeeds again *)
Lemma l_aq_stuck :
  forall (lm : Libm), exists (s0 : Aqua (A := F32 lm)) (a : aq_args (A := F32 lm)),
  aq_hist s0 Fresh /\ snd (aq_init_with a s0) = Err NoGyroconfig /\
  forall s', aq_later (fst (aq_init_with a s0)) s' -> forall a', aq_init_with a' s' = (s', Err (LinErr AlreadyInit)).
Proof.
  intros lm. destruct (aq_fresh lm) as (s0 & H0). exists s0, (args32 lm MARG None). split; [exact H0|].
  assert (N : ~ args_ok (args32 lm MARG None)). { intros (X & _). destruct (X eq_refl) as (c & E & _). discriminate E. }
  pose proof (aq_hist_inv s0 Fresh H0) as IV. pose proof (aq_init_fresh (args32 lm MARG None) s0 IV) as W. unfold wp in W.
  assert (E : snd (aq_init_with (args32 lm MARG None) s0) = Err NoGyroconfig).
  { pose proof IV as (_ & I0 & EA & _). unfold aq_init_with, aq_init. rewrite I0. unfold sbind at 1. rewrite on_att_eq. unfold on_att at 1. rewrite EA.
    destruct (v_init_new (A := F32 lm) 4 ltac:(lia)) as (v0 & -> & H4). rewrite la_Ok. unfold sbind at 1. rewrite on_att_eq. unfold on_att at 1. cbn [aq_attitude aq_put_attitude]. unfold q_fill_identity.
    destruct (q_fillq_ok v0 _ f1 f0 f0 f0 H4) as (v1 & -> & H1); try apply (ok_f0 (A := F32 lm)); try apply (ok_f1 (A := F32 lm)). reflexivity. }
  split; [exact E|]. intros s' L a'. apply aq_init_stuck. eapply later_stuck; [|exact L].
  destruct (aq_init_with (args32 lm MARG None) s0) as [s1 [[]|e|]]; cbn [fst snd] in *; [tauto| |tauto]. apply W.
Qed.

(*@ C46_unchecked_refuted *)
(** C46, violation: a NaN sampling period, gains outside [0, 1], thresholds in the wrong order and interpolation thresholds
    outside [0, 1] are all accepted *)
Lemma l_aq_unchecked :
  forall (lm : Libm), exists (s0 : Aqua (A := F32 lm)) (a : aq_args (A := F32 lm)), aq_hist s0 Fresh /\
  snd (aq_init_with a s0) = Ok tt /\
  fnan (Arith := F32 lm) (ia_ts a) = true /\ fltb (Arith := F32 lm) (ia_alpha a) f0 = true /\ fltb (Arith := F32 lm) f1 (ia_beta a) = true /\
  fltb (Arith := F32 lm) (ia_t2 a) (ia_t1 a) = true /\ fltb (Arith := F32 lm) f1 (ia_t_acc a) = true /\ fnan (Arith := F32 lm) (ia_t_mag a) = true.
Proof.
  intros lm. destruct (aq_fresh lm) as (s0 & H0).
  exists s0, (mkArgs (A := F32 lm) AM None None None None None default_config default_config (nan32 : T (Arith := F32 lm)) true
    (lit (Arith := F32 lm) (-1) 1) (lit (Arith := F32 lm) 2 1) (lit (Arith := F32 lm) 3 10) (lit (Arith := F32 lm) 2 10) (lit (Arith := F32 lm) 3 1) (nan32 : T (Arith := F32 lm)) None None).
  split; [exact H0|]. split.
  - match goal with |- snd (aq_init_with ?a _) = _ => pose proof (l_aq_lifecycle (F32 lm) _ s0 Fresh H0 a None None None f0 f0 f0 f0 f0 f0 default_config) as L; assert (AO : args_ok a) end.
    { split; [intros E; discriminate E|]. split; [apply default_finite|]. split; [apply default_finite|]. left. split; [reflexivity|]. split; [reflexivity|]. split; reflexivity. }
    destruct L as (_ & _ & _ & _ & _ & _ & _ & _ & L). destruct (aq_init_with _ s0) as [s' o]. apply L. exact AO.
  - split; [reflexivity|]. split; [vm_compute; reflexivity|]. split; [vm_compute; reflexivity|]. split; [vm_compute; reflexivity|]. split; [vm_compute; reflexivity|]. reflexivity.
Qed.

Section HistoryFree.
  Context {A : Arith} {OK : ArithOk A}.
  (** what a successful AM update computes *)
  Lemma am_update_ok gx gy gz ax ay az mx my mz s ca cm : aq_inv s Live -> aq_mode s = AM ->
    sensor_get_config Acc (aq_acc s) = Ok ca -> sensor_get_config Mag (aq_mag s) = Ok cm ->
    let a := corrected Acc ca (raw3 ax ay az) 3 in
    let m := corrected Mag cm (raw3 mx my mz) 3 in
    let r := aq_update gx gy gz ax ay az mx my mz s in
    let u := a_unit a in
    let qa := quad_of (let '(x, y, z) := u in acc_quat_of x y z) in
    let b := tog qa (vunit 3 m) in
    let qm := quad_of (mag_am (b 0) (b 1) (b 0 * b 0 + b 1 * b 1)%F) in
    let g := prodf qa qm in
    snd r = Ok tt -> finite_update Acc ca (raw3 ax ay az) /\ finite_update Mag cm (raw3 mx my mz) /\
      (exists v, vec_is v 4 g /\ v_normalize v = (aq_attitude (fst r), Ok tt)) /\ vec_is (aq_attitude (fst r)) 4 (vunit 4 g).
  Proof.
    intros IV EM Ha Hm a m r u qa b qm g.
    pose proof (update_split gx gy gz ax ay az mx my mz s ca cm IV Ha Hm) as U. cbv zeta in U. fold r a m in U. clearbody r.
    destruct U as [(X & _)|[(X & _)|[(s' & e & -> & _)|(s3 & K & EA & EL & GR & FA & FM & ->)]]]; [congruence|congruence|intros X; discriminate X|].
    intros Hok. split; [exact FA|]. split; [exact FM|].
    assert (VA : forall i, i < 3 -> valid (a i)) by (intros i Hi; apply FA; lia).
    assert (VM : forall i, i < 3 -> valid (m i)) by (intros i Hi; apply FM; lia).
    pose proof K as (IV3 & SS & SC). pose proof (loc_rwp _ _ VA VM) as L. unfold rthen in *.
    destruct (st_loc a m) as [[[[a3 al] ml] t]|e|]; cbn [rwp] in L; [|discriminate Hok|discriminate Hok].
    destruct L as (-> & Hal & Hml & gt & Ht). fold u in Hok |- *. rewrite EM in *. unfold st_mode in *. subst qa.
    destruct u as [[x y] z] eqn:Eu. rewrite am_eq in *. subst qm b. cbv beta iota in g.
    pose proof IV3 as (_ & _ & _ & _ & _ & f & Hf).
    destruct (acc_quat_of x y z) as [[[q0 q1] q2] q3]. cbn [quad_of] in *. pose proof (quat4_ok q0 q1 q2 q3) as Q4.
    destruct (quat4 (q0, q1, q2, q3)) as [aq|e|]; cbn [rwp] in Q4; [|discriminate Hok|tauto]. rewrite la_Ok in *. cbn [rthen] in *.
    destruct Q4 as [Haq _]. pose proof (mag_rwp mag_am aq ml t _ (vunit 3 m) gt Haq Hml Ht) as MQ. cbv zeta in MQ.
    destruct (st_mag mag_am aq ml t) as [mq|e|]; cbn [rwp] in MQ; [|discriminate Hok|tauto]. cbn [rthen] in *.
    assert (Hmq : vec_is mq 4 (quad_of (mag_am (tog (quad q0 q1 q2 q3) (vunit 3 m) 0) (tog (quad q0 q1 q2 q3) (vunit 3 m) 1)
        (tog (quad q0 q1 q2 q3) (vunit 3 m) 0 * tog (quad q0 q1 q2 q3) (vunit 3 m) 0 + tog (quad q0 q1 q2 q3) (vunit 3 m) 1 * tog (quad q0 q1 q2 q3) (vunit 3 m) 1)%F))).
    { unfold quad_of. destruct (mag_am _ _ _) as [[[? ?] ?] ?]. exact MQ. }
    clear MQ. revert Hok.
    apply (on_att_mul s3 f aq mq _ _ (fun r => snd (st_end r) = Ok tt -> (exists v, vec_is v 4 g /\ v_normalize v = (aq_attitude (fst (st_end r)), Ok tt)) /\ vec_is (aq_attitude (fst (st_end r))) 4 (vunit 4 g)) Hf Haq Hmq).
    - intros v Hv. unfold st_end, on_att. cbn [aq_attitude aq_put_attitude]. pose proof (v_normalize_pw v 4 _ Hv) as P.
      destruct (v_normalize v) as [v' o] eqn:EN. destruct P as [(_ & E1 & H)|(j & k & _ & _ & _ & E1 & H)]; cbn [fst snd] in *; subst o.
      + intros _. split; [exists v; split; [exact Hv|exact EN]|exact H].
      + intros X. discriminate X.
    - intros v e g' Hv U X. discriminate X.
  Qed.
  (** conversely, when all the intermediate results are finite the update succeeds *)
  Lemma am_update_val gx gy gz gx' gy' gz' ax ay az mx my mz s s' ca cm : aq_inv s Live -> aq_mode s = AM -> aq_inv s' Live -> aq_mode s' = AM ->
    sensor_get_config Acc (aq_acc s) = Ok ca -> sensor_get_config Mag (aq_mag s) = Ok cm ->
    sensor_get_config Acc (aq_acc s') = Ok ca -> sensor_get_config Mag (aq_mag s') = Ok cm ->
    snd (aq_update gx gy gz ax ay az mx my mz s) = Ok tt -> snd (aq_update gx' gy' gz' ax ay az mx my mz s') = Ok tt.
  Proof.
    intros IV EM IV' EM' Ha Hm Ha' Hm' Hok. destruct (am_update_ok gx gy gz ax ay az mx my mz s ca cm IV EM Ha Hm Hok) as (FA & FM & _).
    pose proof (update_split gx gy gz ax ay az mx my mz s ca cm IV Ha Hm) as U. cbv zeta in U.
    pose proof (update_split gx' gy' gz' ax ay az mx my mz s' ca cm IV' Ha' Hm') as U'. cbv zeta in U'.
    set (a := corrected Acc ca (raw3 ax ay az) 3) in *. set (m := corrected Mag cm (raw3 mx my mz) 3) in *.
    set (r := aq_update gx gy gz ax ay az mx my mz s) in *. set (r' := aq_update gx' gy' gz' ax ay az mx my mz s') in *. clearbody r r'.
    destruct U as [(X & _)|[(X & _)|[(s1 & e & -> & _)|(s3 & (IV3 & _) & EA & EL & GR & _ & _ & ->)]]]; [congruence|congruence|discriminate Hok|].
    destruct U' as [(X & _)|[(X & _)|[(s1' & e' & -> & _ & _ & _ & _ & [X|[X|X]])|(s3' & (IV3' & _) & EA' & EL' & GR' & _ & _ & ->)]]];
      [congruence|congruence|unfold gyr_fails in X; rewrite EM' in X; tauto|tauto|tauto|].
    unfold rthen in *. rewrite EM, EM' in *.
    assert (VA : forall i, i < 3 -> valid (a i)) by (intros i Hi; apply FA; lia).
    assert (VM : forall i, i < 3 -> valid (m i)) by (intros i Hi; apply FM; lia). pose proof (loc_rwp _ _ VA VM) as L.
    destruct (st_loc a m) as [[[[[[x y] z] al] ml] t]|e|]; cbn [rwp] in L; [|discriminate Hok|discriminate Hok]. destruct L as (_ & Hal & Hml & gt & Ht).
    unfold st_mode in *. rewrite am_eq in *.
    destruct (acc_quat_of x y z) as [[[q0 q1] q2] q3]. pose proof (quat4_ok q0 q1 q2 q3) as Q4.
    destruct (quat4 (q0, q1, q2, q3)) as [aq|e|]; cbn [rwp] in Q4; [|discriminate Hok|tauto]. rewrite la_Ok in *. cbn [rthen] in *.
    destruct Q4 as [Haq _]. pose proof (mag_rwp mag_am aq ml t _ (vunit 3 m) gt Haq Hml Ht) as MQ. cbv zeta in MQ.
    destruct (st_mag mag_am aq ml t) as [mq|e|]; cbn [rwp] in MQ; [|discriminate Hok|tauto]. cbn [rthen] in *.
    assert (Hmq : exists g, vec_is mq 4 g). { destruct (mag_am _ _ _) as [[[? ?] ?] ?]. eauto. } clear MQ. destruct Hmq as (fm & Hmq).
    pose proof IV3 as (_ & _ & _ & _ & _ & f & Hf). pose proof IV3' as (_ & _ & _ & _ & _ & f' & Hf').
    unfold on_att in *. pose proof (q_mul_pw _ aq mq f _ fm Hf Haq Hmq) as P. pose proof (q_mul_pw _ aq mq f' _ fm Hf' Haq Hmq) as P'.
    destruct (q_mul aq mq (aq_attitude s3)) as [v o]. destruct (q_mul aq mq (aq_attitude s3')) as [v' o'].
    destruct P as [(V & E1 & H)|(j & k & _ & _ & _ & E1 & H)]; cbn [fst snd] in *; subst o; [|discriminate Hok].
    destruct P' as [(V' & E1 & H')|(j & k & Hj & B & _ & E1 & H')]; cbn [fst snd] in *; subst o'.
    2:{ exfalso. apply (bad_Some_not _ _ B). apply V; exact Hj. }
    rewrite (vec4_eq _ _ _ H' H). rewrite la_Ok in *. unfold st_end, on_att in *. cbn [aq_attitude aq_put_attitude] in *.
    destruct (v_normalize v) as [w [[]|e|]]; [reflexivity|discriminate Hok|discriminate Hok].
  Qed.
End HistoryFree.

(*@ C48_history_free *)
(** C48, for every arithmetic, so in f32 whatever libm returns: take two filters in mode AM after any two histories, with the same
    accelerometer and magnetometer calibration, and give both the same accelerometer and magnetometer measurements (and anything at all
    for the gyrometer): one update succeeds exactly when the other does, and then both report the same attitude. *)
Lemma l_aq_history_free :
  forall (A : Arith) (OK : ArithOk A) (s1 s2 : Aqua), aq_hist s1 Live -> aq_hist s2 Live -> aq_mode s1 = AM -> aq_mode s2 = AM ->
  aq_get_accelerometer_config s1 = aq_get_accelerometer_config s2 -> aq_get_magnetometer_config s1 = aq_get_magnetometer_config s2 ->
  forall (gx gy gz gx' gy' gz' : option T) (ax ay az mx my mz : T),
  let (s1', o1) := aq_update gx gy gz ax ay az mx my mz s1 in
  let (s2', o2) := aq_update gx' gy' gz' ax ay az mx my mz s2 in
  o1 = Ok tt -> o2 = Ok tt /\ exists v, aq_get_attitude s1' = Ok v /\ aq_get_attitude s2' = Ok v.
Proof.
  intros A OK s1 s2 H1 H2 M1 M2 EA EM gx gy gz gx' gy' gz' ax ay az mx my mz.
  pose proof (aq_hist_inv _ _ H1) as IV1. pose proof (aq_hist_inv _ _ H2) as IV2. unfold aq_get_accelerometer_config, aq_get_magnetometer_config in *.
  pose proof IV1 as ((R1 & R2 & R3) & I0 & I1 & I2 & I3 & _).
  destruct (get_config_some Acc _ R2 I2) as (ca & Ha). destruct (get_config_some Mag _ R3 I3) as (cm & Hm).
  pose proof Ha as Ha'. rewrite EA in Ha'. pose proof Hm as Hm'. rewrite EM in Hm'.
  pose proof (am_update_val gx gy gz gx' gy' gz' ax ay az mx my mz s1 s2 ca cm IV1 M1 IV2 M2 Ha Hm Ha' Hm') as SU.
  pose proof (am_update_ok gx gy gz ax ay az mx my mz s1 ca cm IV1 M1 Ha Hm) as U1.
  pose proof (am_update_ok gx' gy' gz' ax ay az mx my mz s2 ca cm IV2 M2 Ha' Hm') as U2.
  pose proof (update_out gx gy gz ax ay az mx my mz s1 IV1) as L1. pose proof (update_out gx' gy' gz' ax ay az mx my mz s2 IV2) as L2.
  cbv zeta in *. destruct (aq_update gx gy gz ax ay az mx my mz s1) as [s1' o1]. destruct (aq_update gx' gy' gz' ax ay az mx my mz s2) as [s2' o2]. cbn [fst snd] in *.
  intros E. specialize (SU E). specialize (U1 E). specialize (U2 SU). split; [exact SU|].
  destruct L1 as ((L1 & _) & _). destruct L2 as ((L2 & _) & _). destruct U1 as (_ & _ & _ & U1). destruct U2 as (_ & _ & _ & U2).
  unfold aq_get_attitude. destruct L1 as (_ & -> & _). destruct L2 as (_ & -> & _). cbn [negb].
  rewrite (vec4_eq _ _ _ U2 U1). destruct (v_duplicate_ok _ _ _ U1) as (v & -> & _). exists v. split; reflexivity.
Qed.

(*@ C50_gyro *)
(** C50, for every arithmetic and after any history: in mode MARG an update without any gyrometer measurement fails with
    NoGyroRawMeasurements, with an incomplete one InvalidGyroRawMeasurements, and neither changes anything *)
Lemma l_aq_gyro :
  forall (A : Arith) (OK : ArithOk A) (s : Aqua), aq_hist s Live -> aq_mode s = MARG ->
  forall (gx gy gz : option T) (ax ay az mx my mz : T), gx = None \/ gy = None \/ gz = None ->
  aq_update gx gy gz ax ay az mx my mz s =
  (s, Err (match gx, gy, gz with None, None, None => NoGyroRawMeasurements | _, _, _ => InvalidGyroRawMeasurements end)).
Proof.
  intros A OK s H EM gx gy gz ax ay az mx my mz N. pose proof (aq_hist_inv _ _ H) as (_ & I0 & _). unfold aq_update. rewrite I0, EM. cbn [negb].
  destruct gx as [x|], gy as [y|], gz as [z|]; try reflexivity. destruct N as [N|[N|N]]; discriminate N.
Qed.

(*@ C50_not_finite *)
(** C50: an update with a measurement that is not finite, or whose calibration is not finite, fails with an error about a NaN or infinite value
    and leaves the attitude and the gain alone *)
Lemma l_aq_not_finite :
  forall (A : Arith) (OK : ArithOk A) (s : Aqua) (ca cm : Config), aq_hist s Live ->
  aq_get_accelerometer_config s = Ok ca -> aq_get_magnetometer_config s = Ok cm ->
  forall (gx gy gz ax ay az mx my mz : T),
  let good k c x y z := raw_finite (raw3 x y z) /\ unbiased_finite c (raw3 x y z) /\ corrected_finite k c (raw3 x y z) in
  (~ good Acc ca ax ay az \/ ~ good Mag cm mx my mz \/
   (aq_mode s = MARG /\ forall cg, aq_get_gyrometer_config s = Ok cg -> ~ good Gyr cg gx gy gz)) ->
  let (s', o) := aq_update (Some gx) (Some gy) (Some gz) ax ay az mx my mz s in
  (exists e, o = Err e /\ is_utils e) /\ aq_attitude s' = aq_attitude s /\ aq_alpha s' = aq_alpha s.
Proof.
  intros A OK s ca cm H Ha Hm gx gy gz ax ay az mx my mz gd N. pose proof (aq_hist_inv _ _ H) as IV.
  pose proof (update_split (Some gx) (Some gy) (Some gz) ax ay az mx my mz s ca cm IV Ha Hm) as U. cbv zeta in U.
  destruct (aq_update (Some gx) (Some gy) (Some gz) ax ay az mx my mz s) as [s' o].
  destruct U as [(_ & X & _)|[(_ & _ & [X|[X|X]] & _)|[(s1 & e & E & U & _ & EA & EL & _)|(s3 & K & EA & EL & GR & FA & FM & _)]]]; try discriminate X.
  - injection E as <- ->. eauto.
  - exfalso. destruct N as [N|[N|[EM N]]]; [exact (N FA)|exact (N FM)|].
    unfold gyr_ready in GR. rewrite EM in GR. destruct GR as (x & y & z & c & E1 & E2 & E3 & Hc & FG & _). injection E1 as <-. injection E2 as <-. injection E3 as <-.
    exact (N c Hc FG).
Qed.

(*@ C50_errors *)
(** C50: the only errors of an update of an initialised filter; an AM update can only fail because of a NaN or infinite value *)
Lemma l_aq_errors :
  forall (A : Arith) (OK : ArithOk A) (s : Aqua), aq_hist s Live ->
  forall (gx gy gz : option T) (ax ay az mx my mz : T) (e : AhrsError), snd (aq_update gx gy gz ax ay az mx my mz s) = Err e ->
  match aq_mode s with
  | AM => is_utils e
  | MARG => is_utils e \/ e = NoGyroRawMeasurements \/ e = InvalidGyroRawMeasurements \/ e = LinErr InvalidAlpha \/
            e = InvalidAquaInterpolationTreshold \/ e = InvalidAdaptiveGainTresholds
  end.
Proof.
  intros A OK s H gx gy gz ax ay az mx my mz e E. pose proof (aq_hist_inv _ _ H) as IV. destruct (aq_mode s) eqn:EM.
  - pose proof (update_out gx gy gz ax ay az mx my mz s IV) as U. cbv zeta in U. destruct U as (_ & _ & U). rewrite E in U. unfold aq_err in U. tauto.
  - pose proof IV as ((R1 & R2 & R3) & I0 & I1 & I2 & I3 & _).
    destruct (get_config_some Acc _ R2 I2) as (ca & Ha). destruct (get_config_some Mag _ R3 I3) as (cm & Hm).
    pose proof (update_split gx gy gz ax ay az mx my mz s ca cm IV Ha Hm) as U. cbv zeta in U.
    set (r := aq_update gx gy gz ax ay az mx my mz s) in *. clearbody r.
    destruct U as [(X & _)|[(X & _)|[(s1 & e1 & -> & U & _)|(s3 & (IV3 & _) & _ & _ & _ & FA & FM & ->)]]]; [congruence|congruence|injection E as <-; exact U|].
    assert (VA : forall i, i < 3 -> valid (corrected Acc ca (raw3 ax ay az) 3 i)) by (intros i Hi; apply FA; lia).
    assert (VM : forall i, i < 3 -> valid (corrected Mag cm (raw3 mx my mz) 3 i)) by (intros i Hi; apply FM; lia).
    pose proof (loc_rwp _ _ VA VM) as L. unfold rthen in E.
    destruct (st_loc _ _) as [[[[[[x y] z] al] ml] t]|e1|]; cbn [rwp] in L; [|injection E as <-; apply L|discriminate E]. destruct L as (_ & Hal & Hml & gt & Ht).
    rewrite EM in E. unfold st_mode in E. destruct (am_ok x y z ml t s3 _ gt IV3 Hml Ht) as ((MV & _) & Q & _).
    destruct (aq_update_am x y z ml t s3) as [s4 [[]|e4|]]; cbn [fst snd st_end] in *.
    + unfold on_att in E. destruct MV as (v & al' & (f & Hf) & -> & _). cbn [aq_attitude aq_put_attitude] in E. pose proof (v_normalize_pw v 4 f Hf) as P.
      destruct (v_normalize v) as [v' o]. destruct P as [(_ & E1 & _)|(j & k & _ & _ & _ & E1 & _)]; cbn [fst snd] in *; subst o; cbn in E; [discriminate E|].
      injection E as <-. exists k; auto.
    + injection E as <-. destruct Q as (e5 & E5 & U5); [discriminate|]. injection E5 as <-. exact U5.
    + discriminate E.
Qed.

(** a measurement in tenths *)
Definition up32 (lm : Libm) (g : option Z) (ax ay az mx my mz : Z) : Aqua (A := F32 lm) -> Aqua (A := F32 lm) * res AhrsError unit :=
  let l x := lit (Arith := F32 lm) x 10 in
  aq_update (A := F32 lm) (option_map l g) (option_map l g) (option_map l g) (l ax) (l ay) (l az) (l mx) (l my) (l mz).
Definition with_q (lm : Libm) (a : aq_args (A := F32 lm)) (w x y z : Z) : aq_args (A := F32 lm) :=
  let l n := Some (lit (Arith := F32 lm) n 1) in
  mkArgs (A := F32 lm) (ia_mode a) (l w) (l x) (l y) (l z) (ia_gyr a) (ia_acc a) (ia_mag a) (ia_ts a) (ia_adaptive a)
    (ia_alpha a) (ia_beta a) (ia_t1 a) (ia_t2 a) (ia_t_acc a) (ia_t_mag a) (ia_g a) (ia_h a).
Lemma args32_ok lm mode g : (mode = MARG -> exists c, g = Some c /\ cfg_finite (A := F32 lm) c) -> args_ok (args32 lm mode g).
Proof.
  intros H. split; [exact H|]. split; [apply default_finite|]. split; [apply default_finite|]. left. split; [reflexivity|]. split; [reflexivity|]. split; reflexivity.
Qed.
Lemma hist_init lm s (a : aq_args (A := F32 lm)) : aq_new = Ok s -> args_ok a -> aq_hist (fst (aq_init_with a s)) Live /\
  aq_mode (fst (aq_init_with a s)) = ia_mode a /\
  aq_get_accelerometer_config (fst (aq_init_with a s)) = Ok (ia_acc a) /\ aq_get_magnetometer_config (fst (aq_init_with a s)) = Ok (ia_mag a).
Proof.
  intros E H. pose proof (qh_new s E) as HF. split; [exact (qh_call s Fresh (QInit a) Live HF (qn_init a H))|].
  pose proof (l_aq_lifecycle (F32 lm) _ s Fresh HF a None None None f0 f0 f0 f0 f0 f0 default_config) as L.
  destruct L as (_ & _ & _ & _ & _ & _ & _ & _ & L). destruct (aq_init_with a s) as [s' o]. cbn [fst]. destruct (proj1 L H) as (_ & _ & L1 & _ & _ & _ & _ & _ & _ & _ & _ & _ & _ & _ & L2 & L3). auto.
Qed.
Lemma with_q_ok lm mode g w x y z : (mode = MARG -> exists c, g = Some c /\ cfg_finite (A := F32 lm) c) ->
  quat_finite (A := F32 lm) (lit (Arith := F32 lm) w 1) (lit (Arith := F32 lm) x 1) (lit (Arith := F32 lm) y 1) (lit (Arith := F32 lm) z 1) ->
  args_ok (with_q lm (args32 lm mode g) w x y z).
Proof.
  intros H Q. split; [exact H|]. split; [apply default_finite|]. split; [apply default_finite|]. right. do 4 eexists. do 4 (split; [reflexivity|]). exact Q.
Qed.
(** sign of a component of the attitude *)
Definition q_sign {A : Arith} (i : nat) (s : Aqua) : res AhrsError bool := let? v := aq_get_attitude s in la (let? x := v_get v i in Ok (fltb x f0)).

Lemma aq_new_ok lm : exists s, aq_new (A := F32 lm) = Ok s.
Proof. destruct (aq_fresh lm) as (s & H). inversion H as [s' E|s' p q p' H' N]; [eauto|]. subst. destruct (new_ok (A := F32 lm) Gyr) as (g & Eg & _). unfold aq_new. rewrite Eg. cbn [rbind]. eauto. Qed.
Lemma quat_lit lm : quat_finite (A := F32 lm) (lit (Arith := F32 lm) 0 1) (lit (Arith := F32 lm) 1 1) (lit (Arith := F32 lm) 0 1) (lit (Arith := F32 lm) 0 1).
Proof. split; [apply (ok_f0 (A := F32 lm))|]. split; [apply (ok_f1 (A := F32 lm))|]. split; apply (ok_f0 (A := F32 lm)). Qed.

Lemma aq_example : forall lm : Libm, exists s1 s2 : Aqua (A := F32 lm), aq_hist s1 Live /\ aq_hist s2 Live /\ aq_mode s1 = AM /\ aq_mode s2 = AM /\
  aq_get_accelerometer_config s1 = aq_get_accelerometer_config s2 /\ aq_get_magnetometer_config s1 = aq_get_magnetometer_config s2 /\
  aq_get_attitude s1 <> aq_get_attitude s2 /\ snd (up32 lm None 1 2 (-98) 3 4 5 s1) = Ok tt.
Proof.
  intros lm. destruct (aq_new_ok lm) as (s & E).
  assert (F : match aq_new (A := F32 lm) with
              | Ok s => let s1 := fst (aq_init_with (args32 lm AM None) s) in
                        let s2 := fst (up32 lm (Some 7%Z) 5 6 (-90) 4 4 (-5) (fst (aq_init_with (with_q lm (args32 lm AM None) 0 1 0 0) s))) in
                        (q_sign 2 s1, q_sign 2 s2, snd (up32 lm None 1 2 (-98) 3 4 5 s1)) = (Ok false, Ok true, Ok tt) | _ => False end)
    by (vm_compute; reflexivity).
  rewrite E in F. cbv zeta in F. injection F as F1 F2 F3.
  destruct (hist_init lm s (args32 lm AM None) E) as (H1 & M1 & A1 & B1). { apply args32_ok. intros X; discriminate X. }
  destruct (hist_init lm s (with_q lm (args32 lm AM None) 0 1 0 0) E) as (H2 & M2 & A2 & B2). { apply with_q_ok; [intros X; discriminate X|apply quat_lit]. }
  set (s1 := fst (aq_init_with (args32 lm AM None) s)) in *. set (s2 := fst (aq_init_with (with_q lm (args32 lm AM None) 0 1 0 0) s)) in *. clearbody s1 s2.
  exists s1, (fst (up32 lm (Some 7%Z) 5 6 (-90) 4 4 (-5) s2)). split; [exact H1|].
  split. { unfold up32. apply (qh_call s2 Live (QUpdate _ _ _ _ _ _ _ _ _) Live H2). apply qn_other. intros (a & X). discriminate X. }
  split; [exact M1|]. unfold up32 in *.
  pose proof (l_aq_lifecycle (F32 lm) _ s2 Live H2 (args32 lm AM None) (option_map (fun x => lit (Arith := F32 lm) x 10) (Some 7%Z)) (option_map (fun x => lit (Arith := F32 lm) x 10) (Some 7%Z)) (option_map (fun x => lit (Arith := F32 lm) x 10) (Some 7%Z))
    (lit (Arith := F32 lm) 5 10) (lit (Arith := F32 lm) 6 10) (lit (Arith := F32 lm) (-90) 10) (lit (Arith := F32 lm) 4 10) (lit (Arith := F32 lm) 4 10) (lit (Arith := F32 lm) (-5) 10) default_config) as (_ & _ & L).
  destruct (aq_update _ _ _ _ _ _ _ _ _ s2) as [s2' o]. cbn [fst] in *. destruct L as (_ & (LM & _) & (_ & LA & LB) & _).
  split; [rewrite LM; exact M2|]. split; [rewrite LA, A1, A2; reflexivity|]. split; [rewrite LB, B1, B2; reflexivity|]. split; [|exact F3].
  intros X. unfold q_sign in *. rewrite X in F1. rewrite F1 in F2. discriminate F2.
Qed.

(*@ C50_overwritten_refuted *)
(** C50, violation, whatever libm returns: a filter in mode MARG, default calibration and settings, gets one update with a magnetometer reading
    of zero: the update fails with a NaN error, but the attitude has been changed *)
Lemma l_aq_overwritten :
  forall (lm : Libm), exists (s : Aqua (A := F32 lm)) (gx gy gz ax ay az mx my mz : T (Arith := F32 lm)), aq_hist s Live /\ aq_mode s = MARG /\
  snd (aq_update (Some gx) (Some gy) (Some gz) ax ay az mx my mz s) = Err (LinErr (UtilsErr Nan)) /\
  aq_get_attitude (fst (aq_update (Some gx) (Some gy) (Some gz) ax ay az mx my mz s)) <> aq_get_attitude s.
Proof.
  intros lm. destruct (aq_new_ok lm) as (s & E).
  assert (F : match aq_new (A := F32 lm) with
              | Ok s => let s1 := fst (aq_init_with (args32 lm MARG (Some default_config)) s) in
                        let r := up32 lm (Some 0%Z) 1 2 (-10) 0 0 0 s1 in
                        (q_sign 2 s1, q_sign 2 (fst r), snd r) = (Ok false, Ok true, Err (LinErr (UtilsErr Nan))) | _ => False end)
    by (vm_compute; reflexivity).
  rewrite E in F. cbv zeta in F. injection F as F1 F2 F3.
  destruct (hist_init lm s (args32 lm MARG (Some default_config)) E) as (H1 & M1 & _). { apply args32_ok. intros _. exists default_config. split; [reflexivity|apply default_finite]. }
  set (s1 := fst (aq_init_with (args32 lm MARG (Some default_config)) s)) in *. clearbody s1. unfold up32 in *. cbn [option_map] in *.
  exists s1. do 9 eexists. split; [exact H1|]. split; [exact M1|]. split; [exact F3|]. intros X. unfold q_sign in *. rewrite X in F2. rewrite F1 in F2. discriminate F2.
Qed.

(*@ example *)
(** two filters with different histories and different attitudes satisfy the hypotheses of C48, and the update succeeds (test by computation) *)
Example C48_example :
  forall lm : Libm, exists s1 s2 : Aqua (A := F32 lm), aq_hist s1 Live /\ aq_hist s2 Live /\ aq_mode s1 = AM /\ aq_mode s2 = AM /\
  aq_get_accelerometer_config s1 = aq_get_accelerometer_config s2 /\ aq_get_magnetometer_config s1 = aq_get_magnetometer_config s2 /\
  aq_get_attitude s1 <> aq_get_attitude s2 /\ snd (up32 lm None 1 2 (-98) 3 4 5 s1) = Ok tt.
Proof. exact aq_example. Qed.
Lemma aq_example_marg : forall lm : Libm, exists s : Aqua (A := F32 lm), aq_hist s Live /\ aq_mode s = MARG /\ aq_get_gyrometer_config s = Ok default_config.
Proof.
  intros lm. destruct (aq_new_ok lm) as (s & E). pose (a := args32 lm MARG (Some default_config)).
  assert (AO : args_ok a). { apply args32_ok. intros _. exists default_config. split; [reflexivity|apply default_finite]. }
  exists (fst (aq_init_with a s)). destruct (hist_init lm s a E AO) as (H1 & M1 & _). split; [exact H1|]. split; [exact M1|].
  pose proof (qh_new s E) as HF. pose proof (l_aq_lifecycle (F32 lm) _ s Fresh HF a None None None f0 f0 f0 f0 f0 f0 default_config) as L.
  destruct L as (_ & _ & _ & _ & _ & _ & _ & _ & L). destruct (aq_init_with a s) as [s' o]. cbn [fst]. destruct (proj1 L AO) as (_ & _ & _ & _ & _ & _ & _ & _ & _ & _ & _ & _ & _ & L1 & _).
  destruct (L1 eq_refl) as (c & Ec & Hc). injection Ec as <-. exact Hc.
Qed.
(*@ example *)
(** an initialised filter in mode MARG: the hypotheses of C46 (Live) and C50 *)
Example C50_example :
  forall lm : Libm, exists s : Aqua (A := F32 lm), aq_hist s Live /\ aq_mode s = MARG /\ aq_get_gyrometer_config s = Ok default_config.
Proof. exact aq_example_marg. Qed.
