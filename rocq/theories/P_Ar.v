(** C41 - C44: the angular-rate filter. *)
(*@+*)
From Coq Require Import List Arith ZArith NArith Reals Lia Bool Lra SpecFloat.
From Flocq Require Import Core BinarySingleNaN.
From Verif Require Import M_Base M_Arith M_Utils M_Vector M_Matrix M_Quaternion M_Sensors M_Ar M_F32 M_RX
  S_Spec S_Linalg S_Norm S_Quat S_Sensors S_Ar P_Inst.
Import ListNotations.
Local Open Scope nat_scope.
(*@-*)
From Verif Require Import P_Hoare P_Cont P_Loops P_Access P_Pointwise P_Trans P_Float P_Product P_Diag P_Quat P_Rot P_Norm P_Sensors P_FErr P_Norm32.

Section Gen.
  Context {A : Arith} {OK : ArithOk A}.

  Definition utils_l (P : Prop) (e : LinalgError) : Prop := (exists k, e = UtilsErr k) /\ P.
  Lemma rwp_pm m r c f g cmd : pointwise_m r c f g (cmd m) ->
    rwp (exec cmd m) (fun m' => mat_is m' r c g /\ forall i j, i < r -> j < c -> valid (g i j))
      (utils_l (exists i j, i < r /\ j < c /\ ~ valid (g i j))) False.
  Proof.
    intros P. unfold exec. destruct (cmd m) as [m' o]. destruct P as [(V & E & H)|(i & j & k & Hi & Hj & B & _ & E & H)]; cbn [fst snd] in *; subst o; cbn [rwp].
    - auto.
    - split; [eauto|]. exists i, j. split; auto. split; auto. eapply bad_Some_not; eauto.
  Qed.
  Lemma wp_pv v n f g cmd (Q : unit -> Vec T -> Prop) (X : LinalgError -> Vec T -> Prop) (P : Prop) : pointwise_v n f g (cmd v) ->
    (forall v', vec_is v' n g -> (forall i, i < n -> valid (g i)) -> Q tt v') ->
    (forall k i v', i < n -> bad (g i) = Some k -> (forall a, a < i -> valid (g a)) ->
       vec_is v' n (fun a => if a <? i then g a else f a) -> X (UtilsErr k) v') ->
    wp cmd v Q X P.
  Proof.
    intros W HQ HX. unfold wp. destruct (cmd v) as [v' o]. destruct W as [(V & E & H)|(i & k & Hi & B & V & E & H)]; cbn [fst snd] in *; subst o; eauto.
  Qed.

  Lemma omega_ok (w : nat -> T) : (forall i, i < 3 -> valid (w i)) ->
    rwp (calculate_omega_matrix (w 0) (w 1) (w 2))
      (fun m => mat_is m 4 4 (omega_t w) /\ forall i j, i < 4 -> j < 4 -> valid (omega_t w i j))
      (fun e => is_utils e /\ ~ (forall i j, i < 4 -> j < 4 -> valid (omega_t w i j))) False.
  Proof.
    intros V. unfold calculate_omega_matrix, la. apply rwp_map_err.
    pose proof (V 0 ltac:(lia)) as V0. pose proof (V 1 ltac:(lia)) as V1. pose proof (V 2 ltac:(lia)) as V2.
    apply wp_exec, wp_bind. eapply wp_m_init; [lia|lia|]. intros m0 H0.
    Ltac oset i j B := eapply wp_m_set; [exact B|lia|lia| |
       intros ? Hbad; split; [eexists; reflexivity|]; let Hall := fresh in intros Hall; apply (bad_Some_not _ _ Hbad); exact (Hall i j ltac:(lia) ltac:(lia))].
    apply wp_bind. oset 0 0 H0. intros _ m1 H1.
    apply wp_bind. oset 1 0 H1. intros _ m2 H2.
    apply wp_bind. oset 2 0 H2. intros _ m3 H3.
    apply wp_bind. oset 3 0 H3. intros _ m4 H4.
    apply wp_bind. oset 0 1 H4. intros N0 m5 H5.
    apply wp_bind. oset 1 1 H5. intros _ m6 H6.
    apply wp_bind. oset 2 1 H6. intros N2 m7 H7.
    apply wp_bind. oset 3 1 H7. intros _ m8 H8.
    apply wp_bind. oset 0 2 H8. intros N1 m9 H9.
    apply wp_bind. oset 1 2 H9. intros _ m10 H10.
    apply wp_bind. oset 2 2 H10. intros _ m11 H11.
    apply wp_bind. oset 3 2 H11. intros _ m12 H12.
    apply wp_bind. oset 0 3 H12. intros _ m13 H13.
    apply wp_bind. oset 1 3 H13. intros _ m14 H14.
    apply wp_bind. oset 2 3 H14. intros _ m15 H15.
    oset 3 3 H15. intros Z m16 H16.
    assert (E : forall i j, i < 4 -> j < 4 -> valid (omega_t w i j)).
    { intros i j Hi Hj. do 4 (destruct i as [|i]; [do 4 (destruct j as [|j]; [cbn; auto|]); lia|]). lia. }
    split; [|exact E]. eapply mat_is_ext; [exact H16|]. intros i j Hi Hj.
    do 4 (destruct i as [|i]; [do 4 (destruct j as [|j]; [reflexivity|]); lia|]). lia.
  Qed.

  Lemma factorial_is ck n : rwp (factorial ck n) (fun f => f = (Nfact n mod 2 ^ 64)%N /\ (ck = true -> f = Nfact n /\ n <= 20)) (fun _ => False)
     (ck = true /\ 21 <= n).
  Proof.
    induction n as [|n IH]; [split; [reflexivity|split; [reflexivity|lia]]|]. destruct n as [|n]; [split; [reflexivity|split; [reflexivity|lia]]|].
    cbn [factorial]. apply rwp_bind. eapply rwp_conseq; [exact IH| |intros ? []|intros [? ?]; split; [auto|lia]].
    intros f [Hf Hck]. cbv beta zeta.
    destruct (N.ltb_spec (N.of_nat (S (S n)) * f) (2 ^ 64)) as [L|L].
    - cbn [rwp]. split.
      + rewrite <- (N.mod_small _ _ L). rewrite Hf. change (Nfact (S (S n))) with (N.of_nat (S (S n)) * Nfact (S n))%N.
        rewrite N.mul_mod_idemp_r by discriminate. reflexivity.
      + intros C. destruct (Hck C) as [-> Hn]. split; [reflexivity|]. destruct (Nat.eq_dec (S n) 20) as [E|]; [|lia].
        exfalso. injection E as ->. vm_compute in L. discriminate L.
    - destruct ck; cbn [rwp].
      + split; [auto|]. destruct (Hck eq_refl) as [Hf' _]. rewrite Hf' in L. clear Hf' Hck Hf.
        destruct (Nat.le_gt_cases 21 (S (S n))) as [|Hn]; [assumption|exfalso].
        do 19 (destruct n as [|n]; [vm_compute in L; apply L; reflexivity|]). lia.
      + split; [|discriminate]. rewrite Hf. change (Nfact (S (S n))) with (N.of_nat (S (S n)) * Nfact (S n))%N.
        rewrite N.mul_mod_idemp_r by discriminate. reflexivity.
  Qed.

  Lemma taylor_wp ck (ts : T) (w : nat -> T) omega order temp : mat_is omega 4 4 (ty_om ts w) -> mat_is temp 4 4 idm ->
    wp (taylor_terms ck omega order) temp
      (fun _ t => mat_is t 4 4 (ty_mat ts w order) /\ (ck = true -> order <= 20) /\ forall i j k, i < 4 -> j < 4 -> 1 <= k <= order ->
          valid (fpow (ty_om ts w i j) (fofnat k)) /\ valid (ty_term ts w k i j) /\ valid (ty_mat ts w k i j))
      (fun e _ => is_utils e /\ ~ (forall i j k, i < 4 -> j < 4 -> 1 <= k <= order ->
          ((ck = true -> k <= 21) -> valid (fpow (ty_om ts w i j) (fofnat k))) /\
          ((ck = true -> k <= 20) -> valid (ty_term ts w k i j) /\ valid (ty_mat ts w k i j))))
      (ck = true /\ 21 <= order).
  Proof.
    intros HO HT. unfold taylor_terms.
    apply (wp_for (fun n t => mat_is t 4 4 (ty_mat ts w (n - 1)) /\ (ck = true -> n <= 21) /\ forall i j k, i < 4 -> j < 4 -> 1 <= k < n ->
          valid (fpow (ty_om ts w i j) (fofnat k)) /\ valid (ty_term ts w k i j) /\ valid (ty_mat ts w k i j))).
    - split; [exact HT|]. split; intros; lia.
    - intros n t Hn (Ht & Hck & Hv).
      apply wp_bind, wp_lift. destruct (m_duplicate_ok _ _ _ _ HO) as (s & -> & Hs). cbn [la map_err rwp].
      apply wp_bind, wp_lift, rwp_map_err. eapply rwp_conseq; [eapply rwp_pm, (m_power_elements_pw s 4 4 _ Hs (fofnat n))| | |intros []].
      2:{ intros e ((k & ->) & i & j & Hi & Hj & B). split; [exists k; auto|]. intros H. apply B. apply (H i j n); auto; lia. }
      intros s1 [Hs1 V1]. cbv beta.
      apply wp_bind, wp_lift, rwp_map_err. eapply rwp_conseq; [apply (factorial_is ck n)| |intros ? []|intros [? ?]; split; [auto|lia]].
      intros fa [Hf Hk]. assert (Hk' : ck = true -> n <= 20) by (intros C; apply (Hk C)). clear Hk. cbv beta.
      apply wp_bind, wp_lift, rwp_map_err. eapply rwp_conseq; [eapply rwp_pm, (m_mul_by_scalar_in_place_pw s1 4 4 _ Hs1 (f1 / fofN fa)%F)| | |intros []].
      2:{ intros e ((k & ->) & i & j & Hi & Hj & B). split; [exists k; auto|]. intros H. apply B. rewrite Hf. apply (H i j n); auto; lia. }
      intros s2 [Hs2 V2]. cbv beta.
      unfold sla. apply wp_smap_err. pose proof (m_add_in_place_pw t s2 4 4 _ _ Ht Hs2) as P. unfold wp.
      destruct (m_add_in_place s2 t) as [t' o]. destruct P as [(V3 & E & H3)|(i & j & k & Hi & Hj & B & _ & E & _)]; cbn [fst snd] in *; subst o.
      + destruct n as [|n]; [lia|]. replace (S n - 1) with n in * by lia. replace (S (S n) - 1) with (S n) by lia.
        assert (Eq : forall i j, (ty_mat ts w n i j + fpow (ty_om ts w i j) (fofnat (S n)) * (f1 / fofN fa))%F = ty_mat ts w (S n) i j).
        { intros. rewrite Hf. reflexivity. }
        split; [eapply mat_is_ext; [exact H3|]; intros; apply Eq|]. split; [intros C; specialize (Hk' C); lia|].
        intros i j k Hi Hj Hk. destruct (Nat.eq_dec k (S n)) as [->|]; [|apply Hv; auto; lia].
        split; [apply V1; auto|]. split; [|rewrite <- Eq; apply V3; auto].
        unfold ty_term. rewrite <- Hf. apply V2; auto.
      + split; [exists k; auto|]. intros H. apply (bad_Some_not _ _ B).
        destruct n as [|n]; [lia|]. replace (S n - 1) with n in * by lia. rewrite Hf. apply (H i j (S n)); auto; lia.
    - intros t (Ht & Hck & Hv). replace (max 1 (order + 1) - 1) with order in * by lia. split; [exact Ht|]. split; [intros C; specialize (Hck C); lia|]. intros. apply Hv; auto. lia.
  Qed.

  Lemma mul_vec_ok (m : Mat T) M att f : mat_is m 4 4 M -> vec_is att 4 f ->
    rwp (la (let? am := v_convert_to_matrix att in
          let? a := m_mul_new m am in
          let? qw := m_get a 0 0 in
          let? qx := m_get a 1 0 in
          let? qy := m_get a 2 0 in
          let? qz := m_get a 3 0 in Ok (qw, qx, qy, qz)))
      (fun r => let g := fun i => fsum 4 (fun j => M i j * f j)%F in r = (g 0, g 1, g 2, g 3) /\
          forall i k, i < 4 -> 1 <= k <= 4 -> valid (fsum k (fun j => M i j * f j)%F))
      (fun e => is_utils e /\ ~ (forall i k, i < 4 -> 1 <= k <= 4 -> valid (fsum k (fun j => M i j * f j)%F))) False.
  Proof.
    intros Hm Hf. apply rwp_map_err. destruct (v_convert_ok att 4 f Hf) as (am & -> & Ham). cbn [rbind].
    pose proof (l_mul_new A _ m am 4 4 4 1 _ _ Hm Ham) as P. cbn [Nat.eqb] in P.
    destruct P as [(V & a & -> & Ha)|(i & j & n & e & Hi & Hj & Hn & B & ->)]; cbn [rbind rwp].
    - rewrite !(mi_get _ _ _ _ Ha) by lia. cbn [rbind rwp]. split; [reflexivity|]. intros i k Hi Hk. apply (V i 0 k); lia.
    - split; [exists e; auto|]. intros H. apply (bad_Some_not _ _ B). apply (H i n); auto.
  Qed.

  Lemma reinit4_ok v f : vec_is v 3 f -> exists v' g, v_reinit 4 v = (v', Ok tt) /\ vec_is v' 4 g.
  Proof.
    intros [W I R G]. unfold v_reinit, v_init, v_is_initialized. rewrite I. cbn. eexists. eexists. split; [reflexivity|].
    match goal with |- vec_is ?v 4 _ => apply (vec_is_of v); [|reflexivity] end. destruct W. split; cbn; auto.
  Qed.

  (** the components computed for a rotating system *)
  Lemma step_wp ck m order ts att temp wv n (f w : nat -> T) : vec_is att 4 f -> mat_is temp 4 4 idm -> vec_is wv 3 w ->
    rwp (ar_step ck m order ts att temp wv n (w 0) (w 1) (w 2))
      (fun r => let g := step m order ts f w n in r = (g 0, g 1, g 2, g 3) /\ step_finite ck m order ts f w n /\ supported m /\ (m = TaylorSeries -> ck = true -> order <= 20))
      (fun e => (is_utils e /\ ~ step_finite ck m order ts f w n) \/ (e = ARMethodError /\ ~ supported m))
      (ck = true /\ m = TaylorSeries /\ 21 <= order).
  Proof.
    intros Ha Ht Hw. unfold ar_step, q_get_qw, q_get_qx, q_get_qy, q_get_qz.
    rewrite !(q_get_is att f) by (auto; lia). cbn [la map_err rbind].
    apply rwp_bind. eapply rwp_conseq; [apply (omega_ok w)| | |intros []].
    { intros i Hi. eapply vec_is_valid; eauto. }
    2:{ intros e [U B]. left. split; [exact U|]. intros [F _]. auto. }
    intros om [Hom Vom]. cbv beta zeta.
    destruct m.
    - apply rwp_bind, rwp_map_err. eapply rwp_conseq; [eapply rwp_pm, (m_mul_by_scalar_in_place_pw temp 4 4 _ Ht _)| | |intros []].
      2:{ intros e ((k & ->) & i & j & Hi & Hj & B). left. split; [exists k; auto|]. intros [_ F]. apply B. apply (F i j Hi Hj). }
      intros t1 [Ht1 V1]. apply rwp_bind, rwp_map_err. eapply rwp_conseq; [eapply rwp_pm, (m_mul_by_scalar_in_place_pw om 4 4 _ Hom _)| | |intros []].
      2:{ intros e ((k & ->) & i & j & Hi & Hj & B). left. split; [exists k; auto|]. intros [_ F]. apply B. apply (F i j Hi Hj). }
      intros o1 [Ho1 V2]. apply rwp_bind, rwp_map_err. eapply rwp_conseq; [eapply rwp_pm, (m_add_in_place_pw t1 o1 4 4 _ _ Ht1 Ho1)| | |intros []].
      2:{ intros e ((k & ->) & i & j & Hi & Hj & B). left. split; [exists k; auto|]. intros [_ F]. apply B. apply (F i j Hi Hj). }
      intros t2 [Ht2 V3]. eapply rwp_conseq; [exact (mul_vec_ok t2 (cf_mat ts w n) att f Ht2 Ha)| | |intros []].
      2:{ intros e [U B]. left. split; [exact U|]. intros [_ F]. apply B. intros i k Hi Hk. apply (F i 0 Hi ltac:(lia)); auto. }
      intros r [Hr V4]. split; [exact Hr|]. split; [|split; [left; reflexivity|discriminate]]. split; [exact Vom|].
      intros i j Hi Hj. split; [apply V1; auto|]. split; [apply V2; auto|]. split; [apply V3; auto|]. intros; apply V4; auto.
    - apply rwp_bind, rwp_map_err. eapply rwp_conseq; [eapply rwp_pm, (m_mul_by_scalar_in_place_pw om 4 4 _ Hom _)| | |intros []].
      2:{ intros e ((k & ->) & i & j & Hi & Hj & B). left. split; [exists k; auto|]. intros [_ F]. apply B. apply (F i j Hi Hj). }
      intros o1 [Ho1 V2]. apply rwp_bind.
      eapply rwp_conseq; [apply wp_exec; eapply wp_conseq; [apply (taylor_wp ck ts w o1 order temp Ho1 Ht)|intros ? ? H; exact H|intros ? ? H; exact H|intros H; exact H]| | |intros [? ?]; auto].
      2:{ intros e [U B]. left. split; [exact U|]. intros [_ F]. apply B. intros i j k Hi Hj Hk. destruct (F i j Hi Hj) as (_ & F1 & F2 & _). split; intros; [apply F1|apply F2]; auto. }
      intros t2 (Ht2 & HO & V3). eapply rwp_conseq; [exact (mul_vec_ok t2 (ty_mat ts w order) att f Ht2 Ha)| | |intros []].
      2:{ intros e [U B]. left. split; [exact U|]. intros [_ F]. apply B. intros i k Hi Hk. apply (F i 0 Hi ltac:(lia)); auto. }
      intros r [Hr V4]. split; [exact Hr|]. split; [|split; [right; left; reflexivity|auto]]. split; [exact Vom|].
      intros i j Hi Hj. split; [apply V2; auto|]. split; [intros; apply V3; auto|]. split; [intros; apply V3; auto|]. intros; apply V4; auto.
    - apply rwp_map_err. apply rwp_bind, wp_exec, wp_bind. destruct (reinit4_ok wv w Hw) as (w1 & g1 & E1 & H1). unfold wp at 1. rewrite E1.
      assert (Vw : forall i, i < 3 -> valid (w i)) by (intros; eapply vec_is_valid; eauto).
      apply wp_bind. destruct (q_fillq_ok w1 g1 f0 (w 0) (w 1) (w 2) H1) as (w2 & E2 & H2); auto. { apply ok_f0. } unfold wp at 1. rewrite E2.
      eapply wp_pv; [apply (v_mul_by_scalar_in_place_pw w2 4 _ H2 (fhalf * ts)%F)| |].
      2:{ intros k i v' Hi B _ _. left. split; [exists k; auto|]. intros [_ [F _]]. apply (bad_Some_not _ _ B). apply (F i Hi). }
      intros w3 H3 V3. apply rwp_bind, wp_exec, wp_bind. eapply wp_v_init; [lia|]. intros d0 Hd0.
      eapply wp_pv; [apply (q_mul_pw d0 w3 att _ _ _ Hd0 H3 Ha)| |].
      2:{ intros k i v' Hi B _ _. left. split; [exists k; auto|]. intros [_ [_ F]]. apply (bad_Some_not _ _ B). apply (F i Hi). }
      intros d Hd Vd. rewrite !(q_get_is d _ _ Hd) by lia. cbn [rbind rwp]. split; [reflexivity|]. split; [|split; [right; right; reflexivity|discriminate]].
      split; [exact Vom|]. split; [exact V3|exact Vd].
    - right. split; [reflexivity|]. unfold supported. intros [?|[?|?]]; discriminate.
    - right. split; [reflexivity|]. unfold supported. intros [?|[?|?]]; discriminate.
  Qed.

  (** filter states *)
  Definition ar_inv (s : AR) (p : phase) : Prop :=
    sreach Gyr (ar_gyr s) /\
    match p with
    | Fresh => s_initialized (ar_gyr s) = false /\ ar_attitude s = vnew /\ ar_initialized s = false
    | Stuck => s_initialized (ar_gyr s) = true /\ ar_initialized s = false
    | Live => s_initialized (ar_gyr s) = true /\ ar_initialized s = true /\ exists f, vec_is (ar_attitude s) 4 f
    end.

  Lemma identity4_ok : exists m : Mat T, exec (m_init 4 4 ;;! m_fill_identity) mnew = Ok m /\ mat_is m 4 4 idm.
  Proof.
    destruct (m_init_new 4 4 ltac:(lia) ltac:(lia)) as (m0 & E0 & H0). rewrite (exec_step _ _ _ _ E0).
    pose proof (l_identity A _ m0 4 4 _ H0) as HI. rewrite Nat.eqb_refl in HI. destruct HI as (mi & Ei & Hi).
    exists mi. unfold exec. rewrite Ei. split; [reflexivity|exact Hi].
  Qed.
  Lemma w3_ok (w : nat -> T) : (forall i, i < 3 -> valid (w i)) ->
    exists v, exec (v_init 3 ;;! v_set 0 (w 0) ;;! v_set 1 (w 1) ;;! v_set 2 (w 2)) vnew = Ok v /\ vec_is v 3 w.
  Proof.
    intros V. destruct (v_init_new 3 ltac:(lia)) as (v0 & E0 & H0). rewrite (exec_step _ _ _ _ E0).
    destruct (v_set_in v0 3 _ 0 (w 0) H0 ltac:(lia)) as (v1 & E1 & H1); [apply V; lia|]. rewrite (exec_step _ _ _ _ E1).
    destruct (v_set_in v1 3 _ 1 (w 1) H1 ltac:(lia)) as (v2 & E2 & H2); [apply V; lia|]. rewrite (exec_step _ _ _ _ E2).
    destruct (v_set_in v2 3 _ 2 (w 2) H2 ltac:(lia)) as (v3 & E3 & H3); [apply V; lia|]. unfold exec. rewrite E3.
    exists v3. split; [reflexivity|]. eapply vec_is_ext; [exact H3|]. intros i Hi. do 3 (destruct i as [|i]; [reflexivity|]). lia.
  Qed.

  Definition same_settings (s s' : AR) : Prop :=
    ar_ts s' = ar_ts s /\ ar_method s' = ar_method s /\ ar_order s' = ar_order s /\ ar_initialized s' = ar_initialized s.

  (** one update of a live filter *)
  Lemma ar_update_wp ck s c raw0 cor0 f raw :
    sensor_is Gyr (ar_gyr s) c raw0 cor0 -> s_initialized (ar_gyr s) = true -> ar_initialized s = true -> vec_is (ar_attitude s) 4 f ->
    let w := corrected Gyr c raw 3 in
    let sens := raw_finite raw /\ unbiased_finite c raw /\ corrected_finite Gyr c raw in
    wp (ar_update ck (raw 0) (raw 1) (raw 2)) s
      (fun _ s' => same_settings s s' /\ ar_gyr s' = fst (sensor_update Gyr (raw 0) (raw 1) (raw 2) (ar_gyr s)) /\ sens /\
         if (rate_norm w >? EPSILON)%F
         then (supported (ar_method s) /\ (ar_method s = TaylorSeries -> ck = true -> ar_order s <= 20)) /\ step_finite ck (ar_method s) (ar_order s) (ar_ts s) f w (rate_norm w) /\
              exists v, vec_is v 4 (step (ar_method s) (ar_order s) (ar_ts s) f w (rate_norm w)) /\ v_normalize v = (ar_attitude s', Ok tt)
         else ar_attitude s' = ar_attitude s)
      (fun e s' => same_settings s s' /\ ar_gyr s' = fst (sensor_update Gyr (raw 0) (raw 1) (raw 2) (ar_gyr s)) /\
         (exists f', vec_is (ar_attitude s') 4 f') /\
         ((is_utils e /\ ~ sens /\ ar_attitude s' = ar_attitude s) \/
          (sens /\ (rate_norm w >? EPSILON)%F = true /\
             ((is_utils e /\ (~ step_finite ck (ar_method s) (ar_order s) (ar_ts s) f w (rate_norm w)) /\ ar_attitude s' = ar_attitude s)
              \/ (e = ARMethodError /\ ~ supported (ar_method s) /\ ar_attitude s' = ar_attitude s)
              \/ (is_utils e /\ (supported (ar_method s) /\ (ar_method s = TaylorSeries -> ck = true -> ar_order s <= 20)) /\ step_finite ck (ar_method s) (ar_order s) (ar_ts s) f w (rate_norm w) /\
                  let g := step (ar_method s) (ar_order s) (ar_ts s) f w (rate_norm w) in
                  (~ (forall i, i < 4 -> valid (g i))) \/ (exists v, vec_is v 4 g /\ snd (v_normalize v) <> Ok tt))))))
      (ck = true /\ ar_method s = TaylorSeries /\ 21 <= ar_order s /\ (rate_norm w >? EPSILON)%F = true).
  Proof.
    intros Hs I AI Ha w sens. unfold ar_update. eapply wp_fold; [rewrite AI; cbn [negb]; reflexivity|].
    apply wp_bind, wp_lift. destruct identity4_ok as (temp & -> & Ht). cbn [la map_err rwp].
    apply wp_bind. unfold ar_on_gyr at 1. apply wp_zoom.
    pose proof (update_wp Gyr (ar_gyr s) c raw0 cor0 raw Hs I) as W. unfold wp in W. unfold wp at 1.
    destruct (sensor_update Gyr (raw 0) (raw 1) (raw 2) (ar_gyr s)) as [g' [[]|e|]] eqn:EU; [|destruct W as (U & I' & F)|tauto].
    2:{ split; [repeat split; auto|]. split; [reflexivity|]. split; [cbn [ar_attitude]; eauto|]. left. split; [exact U|]. split; [|reflexivity].
        intros (R1 & R2 & R3). destruct F as [(N & _)|[(_ & i & Hi & N & _)|(_ & _ & N & _)]]; auto. }
    destruct W as (RF & UF & CF & Hg & I').
    assert (S1 : sens) by (split; [auto|split; auto]).
    assert (Vw : forall i, i < 3 -> valid (w i)). { intros i Hi. apply (CF i 3); lia. }
    do 3 (apply wp_bind, wp_reads; cbn [ar_gyr]; rewrite (get_is Gyr g' c _ _ _ Hg I') by lia; cbn [rwp]).
    do 4 (apply wp_bind, wp_reads; cbn [ar_attitude]; unfold q_get_qw, q_get_qx, q_get_qy, q_get_qz; rewrite (q_get_is _ f) by (auto; lia); cbn [la map_err rwp]).
    apply wp_bind, wp_lift. fold w. destruct (w3_ok w Vw) as (wv & -> & Hwv). cbn [la map_err rwp].
    apply wp_bind, wp_lift. rewrite (v_norm_is _ _ _ Hwv). cbn [la map_err rwp].
    change (flush (fsqrt (fsum 3 (fun i => w i * w i)%F))) with (rate_norm w).
    destruct (rate_norm w >? EPSILON)%F eqn:EN.
    2:{ apply wp_sret. split; [repeat split; auto|]. split; [reflexivity|]. split; [exact S1|]. reflexivity. }
    apply wp_bind, wp_reads. cbn [ar_method ar_order ar_ts ar_attitude].
    eapply rwp_conseq; [apply (step_wp ck (ar_method s) (ar_order s) (ar_ts s) (ar_attitude s) temp wv (rate_norm w) f w Ha Ht Hwv)| | |intros (? & ? & ?); auto].
    2:{ intros e HE. split; [repeat split; auto|]. split; [reflexivity|]. split; [cbn [ar_attitude]; eauto|]. right. split; [exact S1|]. split; [reflexivity|].
        destruct HE as [[U N]|[U N]]; [left; auto|right; left; auto]. }
    set (g := step (ar_method s) (ar_order s) (ar_ts s) f w (rate_norm w)).
    intros [[[qw qx] qy] qz] (Eq & F & Sup). cbv beta iota zeta in Eq |- *. injection Eq as -> -> -> ->.
    assert (Eg : forall i, i < 4 -> quad (g 0) (g 1) (g 2) (g 3) i = g i).
    { intros i Hi. do 4 (destruct i as [|i]; [reflexivity|]). lia. }
    apply wp_bind. unfold ar_on_attitude at 1, sla. apply wp_smap_err, wp_zoom. cbn [ar_attitude].
    eapply wp_pv; [apply (q_fillq_pw (ar_attitude s) f (g 0) (g 1) (g 2) (g 3) Ha)| |].
    2:{ intros k i v' Hi B V H. split; [repeat split; auto|]. split; [reflexivity|]. split; [cbn [ar_attitude]; eauto|]. right. split; [exact S1|]. split; [reflexivity|].
        right; right. split; [exists k; auto|]. split; [exact Sup|]. split; [exact F|]. left. intros Vg. apply (bad_Some_not _ _ B). rewrite Eg by auto. auto. }
    intros v1 H1 V1. unfold ar_on_attitude, sla. apply wp_smap_err, wp_zoom. cbn [ar_attitude].
    assert (H1' : vec_is v1 4 g). { eapply vec_is_ext; [exact H1|exact Eg]. }
    pose proof (v_normalize_pw v1 4 g H1') as P. cbv zeta in P. unfold wp.
    destruct (v_normalize v1) as [v2 o] eqn:EV. destruct P as [(V2 & E2 & H2)|(i & k & Hi & B & V2 & E2 & H2)]; cbn [fst snd] in *; subst o.
    - split; [repeat split; auto|]. split; [reflexivity|]. split; [exact S1|]. split; [exact Sup|]. split; [exact F|]. exists v1. split; [exact H1'|exact EV].
    - split; [repeat split; auto|]. split; [reflexivity|]. split; [cbn [ar_attitude]; eauto|]. right. split; [exact S1|]. split; [reflexivity|].
      right; right. split; [exists k; auto|]. split; [exact Sup|]. split; [exact F|]. right. exists v1. split; [exact H1'|]. rewrite EV. discriminate.
  Qed.
End Gen.

Section Life.
  Context {A : Arith} {OK : ArithOk A}.

  Lemma mkAR_eta (s : AR) : mkAR (ar_gyr s) (ar_attitude s) (ar_ts s) (ar_method s) (ar_order s) (ar_initialized s) = s.
  Proof. destruct s; reflexivity. Qed.

  Lemma init_fresh_wp qw qx qy qz c ts m order s : ar_inv s Fresh ->
    wp (ar_init qw qx qy qz c ts m order) s
      (fun _ s' => cfg_finite c /\ quat_finite qw qx qy qz /\ sreach Gyr (ar_gyr s') /\ sensor_get_config Gyr (ar_gyr s') = Ok c /\
         s_initialized (ar_gyr s') = true /\ ar_initialized s' = true /\ ar_ts s' = ts /\ ar_method s' = m /\ ar_order s' = order /\
         vec_is (ar_attitude s') 4 (quad qw qx qy qz))
      (fun e s' => is_utils e /\ ((~ cfg_finite c /\ ar_inv s' Fresh) \/ (cfg_finite c /\ ~ quat_finite qw qx qy qz /\ ar_inv s' Stuck))) False.
  Proof.
    intros (HR & I & Ea & AI). unfold ar_init. eapply wp_fold; [rewrite AI; reflexivity|].
    apply wp_bind. unfold ar_on_gyr at 1. apply wp_zoom.
    pose proof (sr_call Gyr (ar_gyr s) (CInit c) HR) as HR'. cbn [do_call] in HR'.
    pose proof (l_config A _ Gyr (ar_gyr s) c HR (CInit c) (or_introl (conj I eq_refl))) as LC. cbn [do_call] in LC.
    destruct (reach_is Gyr _ HR) as (c0 & raw & cor & Hs).
    assert (FI : forall g' e, sensor_init Gyr c (ar_gyr s) = (g', Err e) -> s_initialized g' = false).
    { intros g' e E. pose proof (set_config_wp Gyr _ c c0 raw cor Hs) as W. unfold wp in W. unfold sensor_init in E. rewrite I in E. unfold sbind in E.
      destruct (private_set_config Gyr c (ar_gyr s)) as [g1 [[]|e1|]]; [discriminate| |discriminate]. injection E as <- <-.
      destruct W as (n & u & _ & _ & _ & _ & _ & ->). exact I. }
    unfold wp at 1. destruct (sensor_init Gyr c (ar_gyr s)) as [g' o] eqn:EI. destruct LC as [L1 L2]. cbn [fst] in HR'.
    assert (D : cfg_finite c \/ ~ cfg_finite c).
    { assert (D : forall l : list T, (forall x, In x l -> valid x) \/ ~ (forall x, In x l -> valid x)).
      { induction l as [|x l IH]; [left; intros ? []|]. destruct (valid_dec x) as [V|(k & B)]; [destruct IH as [IH|IH]|].
        - left. intros y [<-|Hy]; auto.
        - right. intros H. apply IH. intros; apply H; right; auto.
        - right. intros H. apply (bad_Some_not _ _ B). apply H. left; auto. }
      apply D. }
    destruct D as [D|D].
    2:{ destruct (L2 D) as (e & -> & U). split; [exact U|]. left. split; [exact D|]. split; [exact HR'|]. cbn [ar_gyr ar_attitude ar_initialized].
        split; [eapply FI; reflexivity|]. auto. }
    destruct (L1 D) as (-> & I' & GC).
    apply wp_bind. unfold ar_on_attitude at 1, sla. apply wp_smap_err, wp_zoom. cbn [ar_attitude]. rewrite Ea.
    eapply wp_v_init; [lia|]. intros v0 H0.
    apply wp_bind. unfold ar_on_attitude, sla. apply wp_smap_err, wp_zoom. cbn [ar_attitude].
    eapply wp_pv; [apply (q_fillq_pw v0 _ qw qx qy qz H0)| |].
    2:{ intros k i v' Hi B V H. split; [exists k; auto|]. right. split; [exact D|]. split.
        - intros (W & X & Y & Z). apply (bad_Some_not _ _ B). do 4 (destruct i as [|i]; [assumption|]). lia.
        - split; [exact HR'|]. auto. }
    intros v1 H1 V1. apply wp_modify. cbn [ar_gyr ar_attitude ar_initialized ar_ts ar_method ar_order].
    split; [exact D|]. split; [|auto 10]. pose proof (V1 0 ltac:(lia)). pose proof (V1 1 ltac:(lia)). pose proof (V1 2 ltac:(lia)). pose proof (V1 3 ltac:(lia)).
    unfold quat_finite. auto.
  Qed.
  Lemma init_stuck qw qx qy qz c ts m order s : ar_inv s Stuck -> ar_init qw qx qy qz c ts m order s = (s, Err GyrAlreadyInit).
  Proof.
    intros (HR & I & AI). unfold ar_init. rewrite AI. unfold sbind, ar_on_gyr, zoom, sensor_init. rewrite I. cbn. rewrite mkAR_eta. reflexivity.
  Qed.
  Lemma init_live qw qx qy qz c ts m order s : ar_inv s Live -> ar_init qw qx qy qz c ts m order s = (s, Err ARFilterAlreadyInit).
  Proof. intros (HR & I & AI & _). unfold ar_init. rewrite AI. reflexivity. Qed.
  Lemma live_facts s : ar_inv s Live -> exists c raw cor f, sensor_is Gyr (ar_gyr s) c raw cor /\ sensor_get_config Gyr (ar_gyr s) = Ok c /\ vec_is (ar_attitude s) 4 f.
  Proof.
    intros (HR & I & AI & f & Hf). destruct (reach_is Gyr _ HR) as (c & raw & cor & Hs). exists c, raw, cor, f. split; [auto|].
    split; [eapply get_config_is; eauto|auto].
  Qed.
  Lemma sens_config k g x y z : sreach k g -> s_initialized g = true -> forall c, sensor_get_config k g = Ok c ->
    sensor_get_config k (fst (sensor_update k x y z g)) = Ok c /\ s_initialized (fst (sensor_update k x y z g)) = true.
  Proof.
    intros HR I c Hc. pose proof (l_update A _ k g c (fun a => nth a [x; y; z] f0) HR Hc) as W. cbn [nth] in W.
    destruct (sensor_update k x y z g) as [g' o] eqn:E. cbn [fst]. destruct W as (_ & _ & W). split; [exact W|].
    unfold sensor_get_config in W. destruct (s_initialized g'); [reflexivity|discriminate].
  Qed.
  Lemma update_live ck gx gy gz s : ar_inv s Live ->
    (snd (ar_update ck gx gy gz s) <> Panic -> ar_inv (fst (ar_update ck gx gy gz s)) Live /\ same_settings s (fst (ar_update ck gx gy gz s)) /\
       ar_gyr (fst (ar_update ck gx gy gz s)) = fst (sensor_update Gyr gx gy gz (ar_gyr s))) /\
    (snd (ar_update ck gx gy gz s) = Panic -> ck = true /\ ar_method s = TaylorSeries /\ 21 <= ar_order s).
  Proof.
    intros HI. destruct (live_facts s HI) as (c & raw & cor & f & Hs & Hc & Hf). destruct HI as (HR & I & AI & _).
    pose proof (ar_update_wp ck s c raw cor f (fun a => nth a [gx; gy; gz] f0) Hs I AI Hf) as W. cbn [nth] in W. cbv zeta in W. unfold wp in W.
    pose proof (sr_call Gyr (ar_gyr s) (CUpdate gx gy gz) HR) as HR'. cbn [do_call] in HR'.
    pose proof (sens_config Gyr (ar_gyr s) gx gy gz HR I c Hc) as [_ I'].
    destruct (ar_update ck gx gy gz s) as [s' [[]|e|]]; cbn [fst snd]; (split; [intros NP|intros EP; try discriminate; try tauto]).
    - destruct W as (SS & EG & _ & W). split; [|auto]. split; [rewrite EG; exact HR'|]. split; [rewrite EG; exact I'|].
      split; [destruct SS as (_ & _ & _ & ->); exact AI|].
      destruct (rate_norm _ >? EPSILON)%F; [|rewrite W; eauto]. destruct W as (_ & _ & v & Hv & EV).
      pose proof (v_normalize_pw v 4 _ Hv) as P. cbv zeta in P. rewrite EV in P. destruct P as [(_ & _ & H)|(i & k & _ & _ & _ & E & _)]; [eauto|discriminate].
    - destruct W as (SS & EG & Hf' & _). split; [|auto]. split; [rewrite EG; exact HR'|]. split; [rewrite EG; exact I'|].
      split; [destruct SS as (_ & _ & _ & ->); exact AI|exact Hf'].
    - congruence.
  Qed.
  Lemma update_not_live ck gx gy gz s : ar_initialized s = false -> ar_update ck gx gy gz s = (s, Err ARFilterNotInit).
  Proof. intros H. unfold ar_update. rewrite H. reflexivity. Qed.

  Lemma hist_inv ck s p : ar_hist ck s p -> ar_inv s p.
  Proof.
    induction 1 as [s E|s p q p' H IH N NP].
    - unfold ar_new in E. destruct (new_ok Gyr) as (g & Eg & _ & Ig). rewrite Eg in E. cbn in E. injection E as <-.
      split; [apply sr_new; exact Eg|]. auto.
    - destruct N as [qw qx qy qz c ts m order D|qw qx qy qz c ts m order D B|qw qx qy qz c ts m order D V|p qw qx qy qz c ts m order D|p gx gy gz]; cbn [ar_do] in *.
      + pose proof (init_fresh_wp qw qx qy qz c ts m order s IH) as W. unfold wp in W. destruct (ar_init qw qx qy qz c ts m order s) as [s' [[]|e|]]; cbn [fst snd] in *; [|destruct W as (_ & [(_ & W)|(W & _)])|]; tauto.
      + pose proof (init_fresh_wp qw qx qy qz c ts m order s IH) as W. unfold wp in W. destruct (ar_init qw qx qy qz c ts m order s) as [s' [[]|e|]]; cbn [fst snd] in *; [|destruct W as (_ & [(W & _)|(_ & _ & W)])|]; tauto.
      + pose proof (init_fresh_wp qw qx qy qz c ts m order s IH) as W. unfold wp in W. destruct (ar_init qw qx qy qz c ts m order s) as [s' [[]|e|]]; cbn [fst snd] in *; [|destruct W as (_ & [(W & _)|(_ & W & _)])|]; try tauto.
        destruct W as (_ & _ & W1 & _ & W2 & W3 & _ & _ & _ & W4). split; [exact W1|]. eauto.
      + destruct p; [congruence| |].
        * rewrite (init_stuck _ _ _ _ _ _ _ _ _ IH). exact IH.
        * rewrite (init_live _ _ _ _ _ _ _ _ _ IH). exact IH.
      + destruct p.
        * rewrite update_not_live by apply IH. exact IH.
        * rewrite update_not_live by apply IH. exact IH.
        * apply update_live; auto.
  Qed.
End Life.

(*@ C41_lifecycle *)
(** C41, for every arithmetic and after any history of calls: before a successful [init] every update and
    [get_attitude] is refused and changes nothing; [init] succeeds exactly when its arguments are finite and then
    [get_attitude] returns exactly the quaternion given; after that [init] is refused, updates keep the settings
    and the calibration, and never panic except for the Taylor method of order 21 or more.  A filter that was
    given a quaternion that is not finite is stuck: every later [init] fails. *)
Lemma l_ar_lifecycle :
  forall (A : Arith) (OK : ArithOk A) (ck : bool) (s : AR) (p : phase), ar_hist ck s p ->
  forall (gx gy gz qw qx qy qz : T) (c : Config) (ts : T) (m : NIM) (order : nat),
  match p with
  | Fresh =>
      ar_update ck gx gy gz s = (s, Err ARFilterNotInit) /\ ar_get_attitude s = Err ARFilterNotInit /\
      let (s', o) := ar_init qw qx qy qz c ts m order s in
      (cfg_finite c -> quat_finite qw qx qy qz -> o = Ok tt /\ ar_ts s' = ts /\ ar_method s' = m /\ ar_order s' = order /\
         sensor_get_config Gyr (ar_gyr s') = Ok c /\ exists v, ar_get_attitude s' = Ok v /\ vec_is v 4 (quad qw qx qy qz)) /\
      (~ (cfg_finite c /\ quat_finite qw qx qy qz) -> exists e, o = Err e /\ is_utils e)
  | Stuck =>
      ar_update ck gx gy gz s = (s, Err ARFilterNotInit) /\ ar_get_attitude s = Err ARFilterNotInit /\
      ar_init qw qx qy qz c ts m order s = (s, Err GyrAlreadyInit)
  | Live =>
      ar_init qw qx qy qz c ts m order s = (s, Err ARFilterAlreadyInit) /\
      (exists v f, ar_get_attitude s = Ok v /\ vec_is v 4 f) /\
      let (s', o) := ar_update ck gx gy gz s in
      (o <> Panic -> ar_ts s' = ar_ts s /\ ar_method s' = ar_method s /\ ar_order s' = ar_order s /\
         sensor_get_config Gyr (ar_gyr s') = sensor_get_config Gyr (ar_gyr s)) /\
      (o = Panic -> ck = true /\ ar_method s = TaylorSeries /\ 21 <= ar_order s)
  end.
Proof.
  intros A OK ck s p H gx gy gz qw qx qy qz c ts m order. pose proof (hist_inv ck s p H) as IV.
  assert (G : ar_initialized s = false -> ar_get_attitude s = Err ARFilterNotInit).
  { intros E. unfold ar_get_attitude. rewrite E. reflexivity. }
  destruct p.
  - split; [apply update_not_live; apply IV|]. split; [apply G; apply IV|].
    pose proof (init_fresh_wp qw qx qy qz c ts m order s IV) as W. unfold wp in W. destruct (ar_init qw qx qy qz c ts m order s) as [s' [[]|e|]]; [| |tauto].
    + destruct W as (F1 & F2 & W1 & W2 & W3 & W4 & W5 & W6 & W7 & W8). split; [|tauto]. intros _ _. split; [reflexivity|]. split; [auto|]. split; [auto|]. split; [auto|]. split; [auto|].
      unfold ar_get_attitude. rewrite W4. cbn [negb]. destruct (v_duplicate_ok _ _ _ W8) as (v & -> & Hv). exists v. auto.
    + destruct W as (U & W). split; [|eauto]. intros F1 F2. tauto.
  - split; [apply update_not_live; apply IV|]. split; [apply G; apply IV|]. apply init_stuck; auto.
  - split; [apply init_live; auto|]. split.
    { destruct IV as (_ & _ & E & f & Hf). unfold ar_get_attitude. rewrite E. cbn [negb]. destruct (v_duplicate_ok _ _ _ Hf) as (v & -> & Hv). exists v, f. auto. }
    pose proof (update_live ck gx gy gz s IV) as [U1 U2]. destruct (live_facts s IV) as (c1 & raw & cor & f & Hs & Hc & Hf).
    destruct IV as (HR & I & _). pose proof (sens_config Gyr (ar_gyr s) gx gy gz HR I c1 Hc) as [SC _].
    destruct (ar_update ck gx gy gz s) as [s' o]. cbn [fst snd] in *. split; [|exact U2].
    intros NP. destruct (U1 NP) as (_ & (S1 & S2 & S3 & _) & EG). rewrite EG, SC, Hc. auto.
Qed.

(*@ C41_stuck_refuted *)
(** C41, violation: one [init] with a NaN quaternion on a new filter, with overflow checks or without, and
    a stuck filter is reached: no [init] will ever succeed again *)
Lemma l_ar_stuck :
  forall (lm : Libm) (ck : bool), exists s : AR (A := F32 lm), ar_hist ck s Stuck /\
  forall s', ar_later ck s s' -> forall qw qx qy qz c ts m order, snd (ar_init qw qx qy qz c ts m order s') = Err GyrAlreadyInit.
Proof.
  intros lm ck. destruct (new_ok (A := F32 lm) Gyr) as (g & Eg & _ & Ig).
  pose (s0 := mkAR (A := F32 lm) g vnew (lit (Arith := F32 lm) 1 100) ClosedForm 1 false).
  pose (q := AInit (A := F32 lm) (nan32 : T (Arith := F32 lm)) (z32 0 : T (Arith := F32 lm)) (z32 0 : T (Arith := F32 lm)) (z32 0 : T (Arith := F32 lm)) default_config (z32 1 : T (Arith := F32 lm)) Euler 1).
  assert (H0 : ar_hist ck s0 Fresh). { apply ah_new. unfold ar_new. rewrite Eg. reflexivity. }
  assert (N : ar_next Fresh q Stuck).
  { apply an_quat; [|intros (V & _); destruct V; discriminate]. intros x Hx. cbn in Hx. repeat (destruct Hx as [<-|Hx]; [first [apply (ok_f0 (A := F32 lm))|apply (ok_f1 (A := F32 lm))]|]). destruct Hx. }
  assert (NP : snd (ar_do ck q s0) <> Panic).
  { pose proof (l_ar_lifecycle (F32 lm) _ ck s0 Fresh H0 (z32 0) (z32 0) (z32 0) nan32 (z32 0) (z32 0) (z32 0) default_config (z32 1) Euler 1) as (_ & _ & L).
    cbn [ar_do q]. destruct (ar_init (A := F32 lm) _ _ _ _ _ _ _ _ s0) as [s' o]. destruct L as (_ & L). cbn [snd].
    destruct L as (e & -> & _); [|discriminate]. intros (_ & (V & _) & _). discriminate. }
  exists (fst (ar_do ck q s0)). pose proof (ah_call ck s0 Fresh q Stuck H0 N NP) as H1. split; [exact H1|].
  intros s' L qw qx qy qz c ts m order.
  assert (S : ar_inv (A := F32 lm) s' Stuck).
  { induction L as [|s1 q1 L IH NP1]; [eapply hist_inv; eauto|]. destruct q1; cbn [ar_do fst].
    - rewrite (init_stuck _ _ _ _ _ _ _ _ _ IH). exact IH.
    - rewrite update_not_live by apply IH. exact IH. }
  rewrite (init_stuck _ _ _ _ _ _ _ _ _ S). reflexivity.
Qed.

