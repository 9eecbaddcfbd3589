(** Concrete objects that meet the hypotheses of C03, C04, C07, C41, C42, C44, C46 and C55. *)
(*@+*)
From Coq Require Import List Arith ZArith NArith Reals Lia Bool Lra SpecFloat.
From Flocq Require Import Core BinarySingleNaN.
From Verif Require Import M_Base M_Arith M_Utils M_Vector M_Matrix M_Quaternion M_Sensors M_Ar M_Aqua M_F32 M_RX
  S_Spec S_Linalg S_Norm S_Quat S_Shape S_Sensors S_Ar S_Aqua S_F32 P_Inst P_InstF.
Import ListNotations.
Local Open Scope R_scope.
(*@-*)
From Coq Require Import Psatz.
From Verif Require Import P_Hoare P_Float P_FErr P_Norm P_Quat P_Sensors P_Ar P_ArR P_ArT P_ArZ P_Aqua P_Lup32.

(*@ example *)
(** C03, test: a fresh matrix takes a size once; asked again it refuses; a bad new size is refused too *)
Example C03_example :
  forall lm : Libm, let A := F32 lm in let m := fst (m_init 2 3 mnew) in
  snd (m_init 2 3 mnew) = Ok tt /\ m_is_initialized m = true /\ m_init 4 4 m = (m, Err AlreadyInit) /\ snd (m_reinit 3 2 m) = Ok tt /\
  snd (m_reinit 5 0 m) = Err RowsNumberOverflow /\ m_is_initialized (fst (m_reinit 5 0 m)) = false.
Proof. intros lm A m. repeat split. Qed.

Lemma reinit_ex : forall lm : Libm, let A := F32 lm in
  let l := [1; 2; 3; 4; 5; 6]%Z in let m := mk_mat 2 3 (map z32 l) in
  mat_is m 2 3 (fun i j => nth (i * 3 + j) (map z32 l) (B754_zero false)) /\
  exists m', m_reinit 3 2 m = (m', Ok tt) /\ obs (m_get m' 1 0) = Ok (sf 3) /\ obs (m_get m' 2 1) = Ok (sf 6).
Proof.
  intros lm A l m. split.
  - apply (fmat_is lm); [lia|lia|reflexivity|]. apply Forall_forall. intros x Hx. apply in_map_iff in Hx. destruct Hx as (z & <- & Hz). apply z32_R.
    cbn in Hz. repeat (destruct Hz as [<-|Hz]; [lia|]). contradiction.
  - eexists. split; [reflexivity|]. split; vm_compute; reflexivity.
Qed.
(*@ example *)
(** C04: a 2 x 3 matrix whose old elements show through after it has been given the size 3 x 2 *)
Example C04_example :
  forall lm : Libm, let A := F32 lm in
  let l := [1; 2; 3; 4; 5; 6]%Z in let m := mk_mat 2 3 (map z32 l) in
  mat_is m 2 3 (fun i j => nth (i * 3 + j) (map z32 l) (B754_zero false)) /\
  exists m', m_reinit 3 2 m = (m', Ok tt) /\ obs (m_get m' 1 0) = Ok (sf 3) /\ obs (m_get m' 2 1) = Ok (sf 6).
Proof. exact reinit_ex. Qed.

Lemma add_row_ex : forall (lm : Libm) (ck : bool), let A := F32 lm in
  let m := mk_mat 2 3 (map z32 [1; 2; 3; 4; 5; 6]%Z) in let v := mk_vec (map z32 [7; 8]%Z) in
  mat_f (lm := lm) m 2 3 (fun i j => IZR (nth (i * 3 + j) [1; 2; 3; 4; 5; 6]%Z 0%Z)) /\ vec_f (lm := lm) v 2 (fun i => IZR (nth i [7; 8]%Z 0%Z)) /\
  snd (m_add_row ck v 1 m) = Err InvalidSize /\ m_get_rows (fst (m_add_row ck v 1 m)) = Ok 3%nat /\
  snd (m_add_col ck v 4 m) = Err InvalidCol /\ m_get_cols (fst (m_add_col ck v 4 m)) = Ok 4%nat.
Proof.
  intros lm ck A m v. split; [apply (mat_z lm 2 3 [1; 2; 3; 4; 5; 6]%Z); [lia|lia|reflexivity|repeat constructor; cbn; lia]|].
  split; [apply (vec_z lm [7; 8]%Z); [cbn; lia|repeat constructor; cbn; lia]|].
  destruct ck; repeat split; vm_compute; reflexivity.
Qed.
(*@ example *)
(** C07: a vector of length 2 cannot be a row of a 2 x 3 matrix, nor a column behind the end; the matrix grows all the same *)
Example C07_example :
  forall (lm : Libm) (ck : bool), let A := F32 lm in
  let m := mk_mat 2 3 (map z32 [1; 2; 3; 4; 5; 6]%Z) in let v := mk_vec (map z32 [7; 8]%Z) in
  mat_f (lm := lm) m 2 3 (fun i j => IZR (nth (i * 3 + j) [1; 2; 3; 4; 5; 6]%Z 0%Z)) /\ vec_f (lm := lm) v 2 (fun i => IZR (nth i [7; 8]%Z 0%Z)) /\
  snd (m_add_row ck v 1 m) = Err InvalidSize /\ m_get_rows (fst (m_add_row ck v 1 m)) = Ok 3%nat /\
  snd (m_add_col ck v 4 m) = Err InvalidCol /\ m_get_cols (fst (m_add_col ck v 4 m)) = Ok 4%nat.
Proof. exact add_row_ex. Qed.

Lemma ar_phases : forall (lm : Libm) (ck : bool) (m : NIM) (order : nat), exists s0 s1 s2 : AR (A := F32 lm),
  ar_hist ck s0 Fresh /\ ar_hist ck s1 Stuck /\ ar_hist ck s2 Live /\ ar_method s2 = m /\ ar_order s2 = order.
Proof.
  intros lm ck m order. destruct (new_ok (A := F32 lm) Gyr) as (g & Eg & _).
  destruct (l_ar_stuck lm ck) as (s1 & H1 & _).
  exists (mkAR (A := F32 lm) g vnew (lit (Arith := F32 lm) 1 100) ClosedForm 1 false), s1, (started_state lm (z32 1) (z32 0) (z32 0) (z32 0) (z32 1) m order).
  split; [apply ah_new; unfold ar_new; rewrite Eg; reflexivity|]. split; [exact H1|]. split; [apply started; repeat split|]. split; reflexivity.
Qed.
(*@ example *)
(** C41: the angular-rate filter has a history ending in each of its three phases, with any method and order *)
Example C41_example :
  forall (lm : Libm) (ck : bool) (m : NIM) (order : nat), exists s0 s1 s2 : AR (A := F32 lm),
  ar_hist ck s0 Fresh /\ ar_hist ck s1 Stuck /\ ar_hist ck s2 Live /\ ar_method s2 = m /\ ar_order s2 = order.
Proof. exact ar_phases. Qed.

Lemma euler_ex : forall ck : bool, exists s1 s2 s3 : AR (A := RX),
  ar_hist ck s1 Live /\ ar_method s1 = TaylorSeries /\ ar_order s1 = 1%nat /\ ar_ts s1 = Some (/ 100) /\ quat_r (ar_attitude s1) (Quat 0 (3 / 5) 0 (4 / 5)) /\
  ar_hist ck s2 Live /\ ar_method s2 = Euler /\ ar_ts s2 = Some (/ 100) /\ quat_r (ar_attitude s2) (Quat 0 (3 / 5) 0 (4 / 5)) /\
  ar_hist ck s3 Live /\ ar_method s3 = TaylorSeries /\ ar_order s3 = 21%nat /\
  (forall s, s = s1 \/ s = s2 \/ s = s3 -> sensor_get_config Gyr (ar_gyr s) = Ok default_config) /\
  (forall b, (b < 3)%nat -> corrected (A := RX) Gyr default_config (raw3 (A := RX) (Some 1) (Some 2) (Some (-2))) 3 b = Some (triple 1 2 (-2) b)) /\
  eps < rnorm 3 (triple 1 2 (-2)) /\ 0 * (-2) <> 4 / 5 * 2.
Proof.
  intros ck. destruct (started_r ck (Quat 0 (3 / 5) 0 (4 / 5)) (/ 100) TaylorSeries 1) as (s1 & A1 & A2 & A3 & A4 & A5 & A6).
  destruct (started_r ck (Quat 0 (3 / 5) 0 (4 / 5)) (/ 100) Euler 1) as (s2 & B1 & B2 & B3 & B4 & B5 & B6).
  destruct (started_r ck (Quat 0 (3 / 5) 0 (4 / 5)) (/ 100) TaylorSeries 21) as (s3 & D1 & D2 & D3 & D4 & D5 & D6).
  exists s1, s2, s3. repeat (split; [assumption|]). split; [intros s [-> | [-> | -> ]]; assumption|]. split; [intros b Hb; apply default_corrected, Hb|].
  split; [|lra]. unfold rnorm, rdot. cbn [Rsum triple]. replace (0 + 1 * 1 + 2 * 2 + -2 * -2) with (3 * 3) by ring. rewrite sqrt_square by lra. unfold eps. lra.
Qed.
(*@ example *)
(** C44: three live filters at the attitude 3/5 i + 4/5 k, read at the rate (1, 2, -2): orders 1 and 21 of the Taylor series,
    and Euler; the axis of the attitude is not that of the rate *)
Example C44_example :
  forall ck : bool, exists s1 s2 s3 : AR (A := RX),
  ar_hist ck s1 Live /\ ar_method s1 = TaylorSeries /\ ar_order s1 = 1%nat /\ ar_ts s1 = Some (/ 100) /\ quat_r (ar_attitude s1) (Quat 0 (3 / 5) 0 (4 / 5)) /\
  ar_hist ck s2 Live /\ ar_method s2 = Euler /\ ar_ts s2 = Some (/ 100) /\ quat_r (ar_attitude s2) (Quat 0 (3 / 5) 0 (4 / 5)) /\
  ar_hist ck s3 Live /\ ar_method s3 = TaylorSeries /\ ar_order s3 = 21%nat /\
  (forall s, s = s1 \/ s = s2 \/ s = s3 -> sensor_get_config Gyr (ar_gyr s) = Ok default_config) /\
  (forall b, (b < 3)%nat -> corrected (A := RX) Gyr default_config (raw3 (A := RX) (Some 1) (Some 2) (Some (-2))) 3 b = Some (triple 1 2 (-2) b)) /\
  eps < rnorm 3 (triple 1 2 (-2)) /\ 0 * (-2) <> 4 / 5 * 2.
Proof. exact euler_ex. Qed.

Lemma aq_phases : forall lm : Libm, exists s0 s1 s2 s3 : Aqua (A := F32 lm),
  aq_hist s0 Fresh /\ aq_hist s1 Stuck /\ aq_hist s2 Live /\ aq_mode s2 = AM /\ aq_hist s3 Live /\ aq_mode s3 = MARG.
Proof.
  intros lm. destruct (aq_fresh lm) as (s0 & H0). destruct (aq_example lm) as (s2 & _ & H2 & _ & M2 & _). destruct (aq_example_marg lm) as (s3 & H3 & M3 & _).
  exists s0, (fst (aq_init_with (args32 lm MARG None) s0)), s2, s3. split; [exact H0|]. split; [|auto].
  apply (qh_call s0 Fresh (QInit (args32 lm MARG None)) Stuck H0). apply qn_bad. intros (X & _). destruct (X eq_refl) as (c & E & _). discriminate E.
Qed.
(*@ example *)
(** C46: the AQUA filter has a history ending in each of its three phases, and live in both modes *)
Example C46_example :
  forall lm : Libm, exists s0 s1 s2 s3 : Aqua (A := F32 lm),
  aq_hist s0 Fresh /\ aq_hist s1 Stuck /\ aq_hist s2 Live /\ aq_mode s2 = AM /\ aq_hist s3 Live /\ aq_mode s3 = MARG.
Proof. exact aq_phases. Qed.

(*@ example *)
(** C55, test: two different streams of draws in range for four attitudes *)
Example C55_example :
  let draws i := (123456789123 * N.of_nat i)%N in let draws' i := (2 ^ 63 + N.of_nat i)%N in
  (forall i, (i < 12)%nat -> (draws i < 2 ^ 64 - 1)%N /\ (draws' i < 2 ^ 64 - 1)%N /\ draws i <> draws' i).
Proof. intros draws draws' i Hi. unfold draws, draws'. lia. Qed.
