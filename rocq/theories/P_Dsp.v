(** C52, C53: complex numbers, bit reversal and the merge step of the FFT. *)
(*@+*)
From Coq Require Import List Arith ZArith NArith Reals Lia Bool Lra.
From Flocq Require Import Core BinarySingleNaN.
From Verif Require Import M_Base M_Arith M_Utils M_Dsp M_F32 M_RX S_Spec S_Norm S_Dsp P_Inst.
Import ListNotations.
Local Open Scope R_scope.
(*@-*)
From Verif Require Import P_Hoare P_Cont P_Loops P_Pointwise P_Product P_Norm P_Dcm P_ArR.

Lemma cx_inj a b : cx a = cx b -> a = b.
Proof. intros E. injection E as E1 E2. destruct a, b. cbn in *. congruence. Qed.
Lemma close_RX x : allclose (A := RX) (Some x) f0 EPSILON = Ok (Rle_bool (Rabs x) eps).
Proof. rewrite f0_RX, eps_RX. cbn. rewrite Rminus_0_r. reflexivity. Qed.

(*@ C52_new *)
(** [Complex::new] checks its arguments and then ignores them: the result is 0 + 0i for all finite
    arguments, in every arithmetic. *)
Lemma l_c_new :
  forall (A : Arith) (OK : ArithOk A) (re im : T),
  (valid re -> valid im -> c_new re im = Ok (mkComplex f0 f0)) /\
  (forall e, bad re = Some e -> c_new re im = Err e) /\
  (forall e, valid re -> bad im = Some e -> c_new re im = Err e).
Proof.
  intros A OK re im. unfold c_new. split; [|split].
  - intros V1 V2. rewrite !is_valid_value_ok by auto. reflexivity.
  - intros e B. rewrite is_valid_value_bad. rewrite B. reflexivity.
  - intros e V B. rewrite is_valid_value_ok by auto. cbn [rbind]. rewrite is_valid_value_bad. rewrite B. reflexivity.
Qed.

(*@ C52_new_refuted *)
(** so it does not build the number it is asked for, e.g. 3 + 4i *)
Lemma l_c_new_w :
  forall lm, exists (re im : T (Arith := F32 lm)) (z : Complex (A := F32 lm)),
  valid re /\ valid im /\ c_new re im = Ok z /\ B2R re = 3 /\ B2R im = 4 /\ B2R (c_re z) = 0 /\ B2R (c_im z) = 0.
Proof.
  intros lm. exists (lit (Arith := F32 lm) 3 1), (lit (Arith := F32 lm) 4 1), (mkComplex (A := F32 lm) f0 f0).
  split; [split; reflexivity|]. split; [split; reflexivity|]. split; [reflexivity|].
  split; [vm_compute; lra|]. split; [vm_compute; lra|]. split; reflexivity.
Qed.

(*@ C52_field *)
(** The operations are those of complex numbers in exact arithmetic, whatever the target held before. *)
Lemma l_c_field :
  forall (s : Complex (A := RX)) (a b : cplx),
  c_add (cx a) (cx b) s = (cx (cadd a b), Ok tt) /\
  c_sub (cx a) (cx b) s = (cx (csub a b), Ok tt) /\
  c_mul (cx a) (cx b) s = (cx (cmul a b), Ok tt) /\
  c_neg (cx a) = (cx (copp a), Ok tt) /\
  c_conjugate (cx a) = (cx (cconj a), Ok tt) /\
  c_swap (cx a, cx b) = ((cx b, cx a), Ok tt).
Proof. intros s a b. repeat split. Qed.

(*@ C52_div *)
(** Division: refused with the target untouched when both parts of the divisor are within EPSILON of 0,
    and otherwise the one number whose product with the divisor is the dividend. *)
Lemma l_c_div :
  forall (s : Complex (A := RX)) (a b : cplx),
  (czero b -> c_div (cx a) (cx b) s = (s, Err Nan)) /\
  (~ czero b -> exists q, c_div (cx a) (cx b) s = (cx q, Ok tt) /\ cmul q b = a /\ forall q', cmul q' b = a -> q' = q).
Proof.
  intros s [ar ai] [br bi]. unfold c_div, czero, cx. cbn [c_re c_im Re Im]. rewrite !close_RX. cbn [lift sbind]. unfold sbind, lift. fold eps. split.
  - intros [H1 H2]. rewrite (Rle_bool_true _ _ H1). rewrite (Rle_bool_true _ _ H2). reflexivity.
  - intros N. assert (D : 0 < br * br + bi * bi).
    { destruct (Req_dec br 0) as [->|Hr]; [|nra]. destruct (Req_dec bi 0) as [->|Hi]; [|nra]. exfalso. apply N. rewrite Rabs_R0. unfold eps. lra. }
    exists (Cplx ((ar * br + ai * bi) / (br * br + bi * bi)) ((ai * br - ar * bi) / (br * br + bi * bi))). split; [|split].
    + cbn [Re Im]. unfold modify, sret. cbn [fmul fadd fsub RX rx2].
      destruct (Rle_bool_spec (Rabs br) eps) as [L|L]; [destruct (Rle_bool_spec (Rabs bi) eps) as [L'|L']; [tauto|]|];
        cbn [negb]; cbv beta iota; rewrite !rx_divs by lra; reflexivity.
    + unfold cmul. cbn [Re Im]. f_equal; field; lra.
    + intros [qr qi] E. unfold cmul in E. cbn [Re Im] in E. injection E as E1 E2. rewrite <- E1, <- E2. f_equal; field; lra.
Qed.

(*@ C52_polar *)
(** Modulus, polar form and exponential.  The modulus is flushed to 0 when it is within EPSILON, and the
    exponential is 0 when e^re is within EPSILON. *)
Lemma l_c_polar :
  forall (s : Complex (A := RX)) (a : cplx) (r t : R),
  c_calculate_module (cx a) = Ok (Some (if Rle_bool (cabs a) eps then 0 else cabs a)) /\
  c_convert_from_polar (A := RX) (Some r) (Some t) s = (cx (cpolar r t), Ok tt) /\
  (eps < exp (Re a) -> c_expo (cx a) = (cx (cexp a), Ok tt)) /\
  (exp (Re a) <= eps -> c_expo (cx a) = (cx (Cplx 0 0), Ok tt)).
Proof.
  intros s [x y] r t. pose proof (exp_pos x) as EP. split; [|split; [reflexivity|split; intros H]].
  - unfold c_calculate_module, cx. cbn [c_re c_im Re Im fmul fadd RX rx2]. rewrite fsqrt_RX by nra. rewrite close_RX. unfold cabs. cbn [Re Im].
    rewrite (Rabs_pos_eq _ (sqrt_pos _)). cbn [rbind]. destruct (Rle_bool _ eps); [rewrite f0_RX|]; reflexivity.
  - unfold c_expo, cx, sbind, reads, lift. cbn [c_re c_im Re Im fexp RX rx1]. cbn [Re] in H. rewrite close_RX, Rabs_pos_eq, Rle_bool_false by lra. reflexivity.
  - unfold c_expo, cx, sbind, reads, lift. cbn [c_re c_im Re Im fexp RX rx1]. cbn [Re] in H. rewrite close_RX, Rabs_pos_eq, Rle_bool_true by lra. rewrite f0_RX. reflexivity.
Qed.

(*@ C52_set *)
(** The parts can only be set to finite values, and a refused value changes nothing. *)
Lemma l_c_set :
  forall (A : Arith) (x : T) (z : Complex),
  (valid x -> c_set_real_part x z = (mkComplex x (c_im z), Ok tt) /\ c_set_imaginary_part x z = (mkComplex (c_re z) x, Ok tt)) /\
  (forall e, bad x = Some e -> c_set_real_part x z = (z, Err e) /\ c_set_imaginary_part x z = (z, Err e)).
Proof.
  intros A x z. unfold c_set_real_part, c_set_imaginary_part, sbind, lift. split; [intros V|intros e B].
  - rewrite is_valid_value_ok by auto. split; reflexivity.
  - rewrite is_valid_value_bad, B. split; reflexivity.
Qed.

(*@ C52_unchecked_refuted *)
(** But the operations do not check their results: a sum of finite numbers becomes infinite, and a
    finite number divided by itself becomes NaN, both without an error. *)
Lemma l_c_unchecked :
  forall lm, exists (z s s1 s2 : Complex (A := F32 lm)),
  valid (c_re z) /\ valid (c_im z) /\ valid (c_re s) /\ valid (c_im s) /\
  c_add z z s = (s1, Ok tt) /\ finf (c_re s1) = true /\
  c_div z z s = (s2, Ok tt) /\ fnan (c_re s2) = true.
Proof.
  intros lm. exists (mkComplex (A := F32 lm) (lit (Arith := F32 lm) (3 * 10 ^ 38) 1) f0), (mkComplex (A := F32 lm) f0 f0). do 2 eexists.
  split; [split; vm_compute; reflexivity|]. split; [split; vm_compute; reflexivity|]. split; [split; vm_compute; reflexivity|]. split; [split; vm_compute; reflexivity|].
  split; [reflexivity|]. split; [vm_compute; reflexivity|]. split; [|].
  - unfold c_div, sbind, lift. cbn [c_re c_im].
    assert (E : allclose (A := F32 lm) (lit (Arith := F32 lm) (3 * 10 ^ 38) 1) f0 EPSILON = Ok false) by (vm_compute; reflexivity). rewrite E. reflexivity.
  - vm_compute. reflexivity.
Qed.

(*@ example *)
(** (1 + 2i)(3 + 4i) = -5 + 10i, and the divisor 3 + 4i is not numerically zero *)
Example C52_example : c_mul (cx (Cplx 1 2)) (cx (Cplx 3 4)) (cx (Cplx 0 0)) = (cx (cmul (Cplx 1 2) (Cplx 3 4)), Ok tt) /\
  cmul (Cplx 1 2) (Cplx 3 4) = Cplx (-5) 10 /\ ~ czero (Cplx 3 4) /\ eps < exp (Re (Cplx 0 1)).
Proof.
  split; [reflexivity|]. split; [unfold cmul; cbn; f_equal; ring|]. split.
  - intros [H _]. cbn in H. rewrite Rabs_pos_eq in H; lra.
  - cbn. rewrite exp_0. unfold eps. lra.
Qed.

(** ** bit reversal *)
Definition brstep (b : N) (m : nat) (a : N * N) : res FFTError (N * N) :=
  let (r, n) := a in
  let m := N.of_nat m in
  Ok (if (N.land (N.shiftr n m) 1 =? 1)%N
      then (N.lor r (N.shiftl 1 (b - 1 - m)), N.land n (u8_not (N.shiftl 1 m)))
      else (r, n)).
Lemma bit_test n m : (N.land (N.shiftr n m) 1 =? 1)%N = N.testbit n m.
Proof.
  change 1%N with (N.ones 1) at 1. rewrite N.land_ones. change (2 ^ 1)%N with 2%N. rewrite <- N.bit0_mod, N.shiftr_spec by lia. rewrite N.add_0_l.
  destruct (N.testbit n m); reflexivity.
Qed.
Lemma shiftl1_bit k i : N.testbit (N.shiftl 1 k) i = (i =? k)%N.
Proof. rewrite N.shiftl_1_l, N.pow2_bits_eqb, N.eqb_sym. reflexivity. Qed.
Lemma clear_bit n m i : (m < 8)%N -> (i < m)%N -> N.testbit (N.land n (u8_not (N.shiftl 1 m))) i = N.testbit n i.
Proof.
  intros Hm Hi. unfold u8_not. rewrite N.land_spec, N.lxor_spec, shiftl1_bit. replace (i =? m)%N with false by (symmetry; apply N.eqb_neq; lia).
  change 255%N with (N.ones 8). rewrite N.ones_spec_low by lia. destruct (N.testbit n i); reflexivity.
Qed.
Lemma rev_range k : rev (range 0 (S k)) = k :: rev (range 0 k).
Proof. unfold range. replace (S k - 0)%nat with (S k) by lia. replace (k - 0)%nat with k by lia. rewrite seq_S, rev_app_distr. reflexivity. Qed.
Lemma br_loop (b n0 : N) : (b <= 8)%N -> forall (k : nat) r n, (N.of_nat k <= b)%N ->
  (forall i, N.testbit r i = ((i <? b - N.of_nat k)%N && N.testbit n0 (b - 1 - i))%bool) -> (forall i, (i < N.of_nat k)%N -> N.testbit n i = N.testbit n0 i) ->
  exists r' n', rfold (rev (range 0 k)) (brstep b) (r, n) = Ok (r', n') /\ forall i, N.testbit r' i = ((i <? b)%N && N.testbit n0 (b - 1 - i))%bool.
Proof.
  intros Hb. induction k as [|k IH]; intros r n Hk Hr Hn.
  - exists r, n. split; [reflexivity|]. intros i. rewrite Hr. rewrite N.sub_0_r. reflexivity.
  - rewrite rev_range. cbn [rfold]. unfold brstep at 1. rewrite bit_test. rewrite (Hn (N.of_nat k)) by lia. cbn [rbind].
    assert (LT : forall i, ((i <? b - N.of_nat k) = (i <? b - N.of_nat (S k)) || (i =? b - 1 - N.of_nat k))%N%bool).
    { intros i. apply eq_true_iff_eq. rewrite orb_true_iff, !N.ltb_lt, N.eqb_eq. lia. }
    destruct (N.testbit n0 (N.of_nat k)) eqn:B; apply IH; try lia.
    + intros i. rewrite N.lor_spec, shiftl1_bit, Hr, LT. destruct (N.ltb_spec i (b - N.of_nat (S k))); cbn [andb orb].
      * replace (i =? b - 1 - N.of_nat k)%N with false by (symmetry; apply N.eqb_neq; lia). apply orb_false_r.
      * destruct (N.eqb_spec i (b - 1 - N.of_nat k)) as [->|]; cbn [andb]; [|reflexivity]. replace (b - 1 - (b - 1 - N.of_nat k))%N with (N.of_nat k) by lia. auto.
    + intros i Hi. rewrite clear_bit by lia. apply Hn. lia.
    + intros i. rewrite Hr, LT. destruct (N.ltb_spec i (b - N.of_nat (S k))); cbn [andb orb]; [reflexivity|].
      destruct (N.eqb_spec i (b - 1 - N.of_nat k)) as [->|]; cbn [andb]; [|reflexivity]. replace (b - 1 - (b - 1 - N.of_nat k))%N with (N.of_nat k) by lia. auto.
    + intros i Hi. apply Hn. lia.
Qed.

(*@ C53_bitrev *)
(** Bit reversal: bit i of the result is bit b-1-i of the argument for i < b, the other bits are 0; more
    than 8 bits are refused. *)
Lemma l_bitrev :
  forall n b : N, (n < 256)%N ->
  ((b <= 8)%N -> exists r, bitrev n b = Ok r /\ forall i, N.testbit r i = ((i <? b)%N && N.testbit n (b - 1 - i))%bool) /\
  ((8 < b)%N -> bitrev n b = Err BitReverseError).
Proof.
  intros n b _. unfold bitrev. split; intros H.
  - replace (8 <? b)%N with false by (symmetry; apply N.ltb_ge; auto).
    destruct (br_loop b n H (N.to_nat b) 0%N n) as (r & n' & E & Hr); [lia| |auto|].
    + intros i. rewrite N.bits_0, N2Nat.id, N.sub_diag. destruct i; reflexivity.
    + exists r. split; [|exact Hr]. change (rbind (rfold (rev (range 0 (N.to_nat b))) (brstep b) (0%N, n)) (fun '(r, _) => Ok r) = Ok r). rewrite E. reflexivity.
  - replace (8 <? b)%N with true by (symmetry; apply N.ltb_lt; auto). reflexivity.
Qed.
Lemma bits_lt r b : (forall i, (b <= i)%N -> N.testbit r i = false) -> (r < 2 ^ b)%N.
Proof.
  intros H. destruct (N.eq_dec r 0) as [->|N0]; [apply N.neq_0_lt_0, N.pow_nonzero; lia|]. apply N.log2_lt_pow2; [lia|].
  destruct (N.lt_ge_cases (N.log2 r) b) as [|G]; [auto|]. pose proof (N.bit_log2 r N0) as B. rewrite H in B by auto. discriminate B.
Qed.

(*@ C53_involution *)
(** On b-bit numbers it is its own inverse, hence a permutation of 0 .. 2^b - 1. *)
Lemma l_bitrev_inv :
  forall n b : N, (b <= 8)%N -> (n < 2 ^ b)%N ->
  exists r, bitrev n b = Ok r /\ (r < 2 ^ b)%N /\ bitrev r b = Ok n.
Proof.
  intros n b Hb Hn. assert (P : (2 ^ b <= 2 ^ 8)%N) by (apply N.pow_le_mono_r; lia). change (2 ^ 8)%N with 256%N in P.
  destruct (proj1 (l_bitrev n b ltac:(lia)) Hb) as (r & E & Hr). exists r. split; [exact E|].
  assert (R : (r < 2 ^ b)%N). { apply bits_lt. intros i Hi. rewrite Hr. replace (i <? b)%N with false by (symmetry; apply N.ltb_ge; auto). reflexivity. }
  split; [exact R|]. destruct (proj1 (l_bitrev r b ltac:(lia)) Hb) as (n' & E' & Hn'). rewrite E'. f_equal. apply N.bits_inj. intros i. rewrite Hn', Hr.
  destruct (N.ltb_spec i b) as [L|L]; cbn [andb].
  - replace (b - 1 - i <? b)%N with true by (symmetry; apply N.ltb_lt; lia). cbn [andb]. f_equal. lia.
  - symmetry. destruct (N.eq_dec n 0) as [->|N0]; [apply N.bits_0|]. apply N.bits_above_log2. apply N.log2_lt_pow2 in Hn; lia.
Qed.

(*@ example *)
(** 13 = 01101 on five bits becomes 10110 = 22 *)
Example C53_example : bitrev 13 5 = Ok 22%N /\ bitrev 22 5 = Ok 13%N /\ bitrev 13 9 = Err BitReverseError.
Proof. repeat split; reflexivity. Qed.

(** ** the merge step *)
Section Merge.
  Context {A : Arith} {OK : ArithOk A}.
  Lemma for_chk {S E} (l : list nat) body (x : S) (c : nat -> bool) :
    (forall i, In i l -> body i x = (x, if c i then Ok tt else Panic)) ->
    for_ (E := E) l body x = (x, if forallb c l then Ok tt else Panic).
  Proof.
    induction l as [|i l IH]; intros H; cbn [for_ forallb]; [reflexivity|]. unfold sbind. rewrite H by (left; auto).
    destruct (c i); cbn [andb]; [|reflexivity]. apply IH. intros; apply H; right; auto.
  Qed.
  Lemma new0 : c_new f0 f0 = Ok (mkComplex f0 f0).
  Proof. unfold c_new. rewrite !is_valid_value_ok by apply ok_f0. reflexivity. Qed.
  Lemma body_chk ck m k v i x : (k + i + m / 2 < 256)%nat ->
    dftmerge_body ck m k v i x = (x, if (k + i + m / 2 <? length x)%nat then Ok tt else Panic).
  Proof.
    intros H. unfold dftmerge_body, u8_add, sbind, lift, reads. rewrite (proj2 (Nat.ltb_lt (k + i) 256)) by lia. rewrite (proj2 (Nat.ltb_lt (k + i + m / 2) 256)) by lia.
    unfold arr_get. destruct (Nat.ltb_spec (k + i + m / 2) (length x)) as [L|L].
    - destruct (nth_error x (k + i)) eqn:E1; [|apply nth_error_None in E1; lia]. unfold fft_err at 1. rewrite new0. cbn [map_err].
      destruct (nth_error x (k + i + m / 2)) eqn:E2; [|apply nth_error_None in E2; lia]. reflexivity.
    - destruct (nth_error x (k + i)) eqn:E1; [|reflexivity]. unfold fft_err at 1. rewrite new0. cbn [map_err].
      replace (nth_error x (k + i + m / 2)) with (@None Complex); [reflexivity|]. symmetry. apply nth_error_None. auto.
  Qed.
  Definition stage_ok (n m len : nat) : bool := forallb (fun k => forallb (fun i => (k + i + m / 2 <? len)%nat) (step_by 0 n m)) (range 0 (m / 2)).
  Lemma stage_chk fuel ck n m x : (m <= n)%nat -> (2 * m < 256)%nat ->
    (forall k i, In k (range 0 (m / 2)) -> In i (step_by 0 n m) -> (k + i + m / 2 < 256)%nat) ->
    valid (lit (-2) 1 * PI_ / fofnat m)%F ->
    dftmerge_loop (S fuel) ck n m x =
      match bad (fexp f0) with
      | Some e => (x, Err (FFTUtilsError e))
      | None => if stage_ok n m (length x) then dftmerge_loop fuel ck n (2 * m) x else (x, Panic)
      end.
  Proof.
    intros Hm H2 Hin V. cbn [dftmerge_loop]. rewrite (proj2 (Nat.ltb_ge n m)) by auto. unfold sbind at 1, lift at 1.
    unfold fft_err at 1, c_new at 1. rewrite !is_valid_value_ok by (auto; apply ok_f0). cbn [rbind map_err].
    unfold sbind at 1, lift at 1. unfold fft_err at 1. rewrite new0. cbn [map_err]. unfold sbind at 1, lift at 1.
    assert (EX : fft_err (exec c_expo (mkComplex f0 f0)) = match bad (fexp f0) with Some e => Err (FFTUtilsError e) | None => Ok (fst (c_expo (mkComplex f0 f0))) end).
    { unfold fft_err, c_expo, exec, sbind, reads, lift, allclose. cbn [c_re]. rewrite is_valid_value_bad. destruct (bad (fexp f0)) as [e|]; [reflexivity|]. cbn [rbind].
      rewrite is_valid_value_ok by apply ok_f0. cbn [rbind]. destruct (_ <=? EPSILON)%F; reflexivity. }
    rewrite EX. clear EX. destruct (bad (fexp f0)) as [e|]; [reflexivity|].
    unfold sbind at 1.
    rewrite (for_chk _ _ x (fun k => forallb (fun i => (k + i + m / 2 <? length x)%nat) (step_by 0 n m))).
    2:{ intros k Hk. apply for_chk. intros i Hi. apply body_chk. auto. }
    fold (stage_ok n m (length x)). destruct (stage_ok n m (length x)); [|reflexivity]. unfold sbind, lift. rewrite (proj2 (Nat.ltb_lt (2 * m) 256)) by lia. reflexivity.
  Qed.
End Merge.

Lemma w_valid lm m : In m [2; 4; 8; 16]%nat -> valid (A := F32 lm) (fdiv (Arith := F32 lm) (fmul (Arith := F32 lm) (lit (Arith := F32 lm) (-2) 1) PI_) (fofnat m)).
Proof. intros [<-|[<-|[<-|[<-|[]]]]]; split; vm_compute; reflexivity. Qed.
Lemma stage16 m len : In m [2; 4; 8; 16]%nat -> (16 <= len)%nat -> stage_ok 16 m len = true.
Proof.
  intros Hm L. unfold stage_ok. apply forallb_forall. intros k Hk. apply forallb_forall. intros i Hi. apply Nat.ltb_lt.
  destruct Hm as [<-|[<-|[<-|[<-|[]]]]]; cbn in Hk, Hi; cbn [Nat.div Nat.divmod fst]; lia.
Qed.

(*@ C53_dftmerge *)
(** The merge step leaves the samples as they are, and computes nothing: it succeeds on every slice of at
    least 16 elements, panics on shorter ones, and fails if expf(0) is not finite. *)
Lemma l_dftmerge :
  forall lm (ck : bool) (self : FFT (A := F32 lm)) (x : list (Complex (A := F32 lm))),
  dftmerge ck (fft_new self) x =
    (x, match bad (fexp (Arith := F32 lm) f0) with
        | Some e => Err (FFTUtilsError e)
        | None => if (16 <=? length x)%nat then Ok tt else Panic
        end).
Proof.
  intros lm ck self x. unfold dftmerge. change (fft_n (fft_new self)) with 16%nat.
  rewrite stage_chk; [|lia|lia| |apply (w_valid lm 2); cbn; auto].
  2:{ intros k i Hk Hi. cbn in Hk, Hi. cbn [Nat.div Nat.divmod fst]. lia. }
  destruct (bad (fexp (Arith := F32 lm) f0)) as [e|] eqn:B; [reflexivity|].
  destruct (Nat.leb_spec 16 (length x)) as [L|L].
  - rewrite stage16 by (cbn; auto). change (2 * 2)%nat with 4%nat.
    rewrite stage_chk; [|lia|lia| |apply (w_valid lm 4); cbn; auto].
    2:{ intros k i Hk Hi. cbn in Hk, Hi. cbn [Nat.div Nat.divmod fst]. lia. }
    rewrite B, stage16 by (cbn; auto). change (2 * 4)%nat with 8%nat.
    rewrite stage_chk; [|lia|lia| |apply (w_valid lm 8); cbn; auto].
    2:{ intros k i Hk Hi. cbn in Hk, Hi. cbn [Nat.div Nat.divmod fst]. lia. }
    rewrite B, stage16 by (cbn; auto). change (2 * 8)%nat with 16%nat.
    rewrite stage_chk; [|lia|lia| |apply (w_valid lm 16); cbn; auto 10].
    2:{ intros k i Hk Hi. cbn in Hk, Hi. cbn [Nat.div Nat.divmod fst]. lia. }
    rewrite B, stage16 by (cbn; auto 10). change (2 * 16)%nat with 32%nat. reflexivity.
  - replace (stage_ok 16 2 (length x)) with false; [reflexivity|]. symmetry. unfold stage_ok. apply not_true_is_false. intros F.
    rewrite forallb_forall in F. specialize (F 0%nat ltac:(cbn; auto)). rewrite forallb_forall in F. specialize (F 14%nat ltac:(cbn; tauto)). apply Nat.ltb_lt in F. cbn in F. lia.
Qed.
