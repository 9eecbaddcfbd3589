(** Model of dsp/src/complex.rs and dsp/src/fft.rs. *)
From Coq Require Import List Arith ZArith NArith Bool.
From Verif Require Import M_Base M_Arith M_Utils.
Import ListNotations.

Section F32.
  Context {A : Arith}.

  (** dsp/src/complex.rs:12-15 *)
  Record Complex := mkComplex { c_re : T; c_im : T }.
  Notation "'SC' X" := (ST Complex UtilsError X) (at level 10).

  (** dsp/src/complex.rs:30-42 *)
  Definition c_new (re im : T) : res UtilsError Complex :=
    let? _ := is_valid_value re in
    let? _ := is_valid_value im in
    Ok (mkComplex f0 f0).

  (** dsp/src/complex.rs:45-51, 54-56, 59-65, 68-70 *)
  Definition c_set_real_part (re : T) : SC unit :=
    lift (is_valid_value re) ;;! modify (fun z => mkComplex re (c_im z)).
  Definition c_get_real_part (z : Complex) : res UtilsError T := Ok (c_re z).
  Definition c_set_imaginary_part (im : T) : SC unit :=
    lift (is_valid_value im) ;;! modify (fun z => mkComplex (c_re z) im).
  Definition c_get_imaginary_part (z : Complex) : res UtilsError T := Ok (c_im z).

  (** dsp/src/complex.rs:73-84 *)
  Definition c_convert_from_polar (r theta : T) : SC unit :=
    lift (is_valid_value r) ;;!
    lift (is_valid_value theta) ;;!
    c_set_real_part (r * fcos theta)%F ;;!
    c_set_imaginary_part (r * fsin theta)%F.

  (** dsp/src/complex.rs:87-92 *)
  Definition c_neg : SC unit :=
    let! re := reads (fun z => Ok (c_re z)) in
    c_set_real_part (- re)%F ;;!
    let! im := reads (fun z => Ok (c_im z)) in
    c_set_imaginary_part (- im)%F.

  (** dsp/src/complex.rs:95-99 *)
  Definition c_conjugate : SC unit :=
    let! im := reads (fun z => Ok (c_im z)) in
    c_set_imaginary_part (- im)%F.

  (** dsp/src/complex.rs:102-110 *)
  Definition c_calculate_module (z : Complex) : res UtilsError T :=
    let module := fsqrt (c_re z * c_re z + c_im z * c_im z)%F in
    let? close := allclose module f0 EPSILON in
    Ok (if close then f0 else module).

  (** dsp/src/complex.rs:113-125 *)
  Definition c_expo : SC unit :=
    let! m := reads (fun z => Ok (fexp (c_re z))) in
    let! close := lift (allclose m f0 EPSILON) in
    if close then modify (fun _ => mkComplex f0 f0)
    else modify (fun z => mkComplex (m * fcos (c_im z)) (m * fsin (c_im z))%F).

  (** dsp/src/complex.rs:128-133, 136-141, 144-149 *)
  Definition c_add (z1 z2 : Complex) : SC unit :=
    modify (fun _ => mkComplex (c_re z1 + c_re z2)%F (c_im z1 + c_im z2)%F).
  Definition c_sub (z1 z2 : Complex) : SC unit :=
    modify (fun _ => mkComplex (c_re z1 - c_re z2)%F (c_im z1 - c_im z2)%F).
  Definition c_mul (z1 z2 : Complex) : SC unit :=
    modify (fun _ => mkComplex (c_re z1 * c_re z2 - c_im z1 * c_im z2)%F
                               (c_re z1 * c_im z2 + c_im z1 * c_re z2)%F).

  (** dsp/src/complex.rs:152-164; the second [allclose] is evaluated only if the first
      one answers true *)
  Definition c_div (z1 z2 : Complex) : SC unit :=
    let! b1 := lift (allclose (c_re z2) f0 EPSILON) in
    let! b := (if b1 then lift (allclose (c_im z2) f0 EPSILON) else sret false) in
    if b then sthrow Nan
    else
      let d := (c_re z2 * c_re z2 + c_im z2 * c_im z2)%F in
      modify (fun _ => mkComplex ((c_re z1 * c_re z2 + c_im z1 * c_im z2) / d)%F
                                 ((c_im z1 * c_re z2 - c_re z1 * c_im z2) / d)%F).

  (** dsp/src/complex.rs:167-176; mutates both arguments *)
  Definition c_swap : ST (Complex * Complex) UtilsError unit :=
    modify (fun p => (snd p, fst p)).

  (** dsp/src/fft.rs:12-16 *)
  Inductive FFTError := BitReverseError | FFTUtilsError (e : UtilsError).

  (** dsp/src/fft.rs:26-29; [FFT::new] takes an FFT, so only n can be observed *)
  Record FFT := mkFFT { fft_n : nat; fft_elements : list T }.
  Definition FFT_N_MAX : nat := 16.

  (** dsp/src/fft.rs:33-38 *)
  Definition fft_new (self : FFT) : FFT := mkFFT FFT_N_MAX (repeat f0 FFT_N_MAX).

  (** dsp/src/fft.rs:41-58.  u8 values as N below 256; the [for] loop on (r, n). *)
  Definition u8_not (x : N) : N := N.lxor x 255.
  Definition bitrev (n b : N) : res FFTError N :=
    if (8 <? b)%N then Err BitReverseError
    else
      let? (r, _) := rfold (rev (range 0 (N.to_nat b))) (fun m '(r, n) =>
        let m := N.of_nat m in
        Ok (if (N.land (N.shiftr n m) 1 =? 1)%N
            then (N.lor r (N.shiftl 1 (b - 1 - m)), N.land n (u8_not (N.shiftl 1 m)))
            else (r, n))) (0%N, n) in
      Ok r.

  (** [(a..b).step_by(s)] for s > 0 *)
  Definition step_by (a b s : nat) : list nat :=
    map (fun k => a + k * s) (seq 0 ((b - a + s - 1) / s)).

  (** dsp/src/fft.rs:61-90; the state is the caller's mutable slice [x].
      [m *= 2] is u8 arithmetic: with n >= 128, m = 128 doubles to 256, which panics
      with overflow checks and wraps to 0 without them.
      [fuel] bounds the number of doublings: 8 are enough for a u8. *)
  Notation "'SX' X" := (ST (list Complex) FFTError X) (at level 10).
  Definition fft_err {X} (r : res UtilsError X) : res FFTError X := map_err FFTUtilsError r.
  (** lines 76-83: body of the inner loop *)
  Definition dftmerge_body (ck : bool) (m k : nat) (v : Complex) (i : nat) : SX unit :=
    let! p := lift (u8_add ck k i) in
    let! q := lift (u8_add ck p (m / 2)) in
    let! a := reads (fun x => arr_get x p) in
    let! b := lift (fft_err (c_new f0 f0)) in
    let! xq := reads (fun x => arr_get x q) in
    let! b := lift (fft_err (exec (c_mul xq v) b)) in
    sret tt.
  Fixpoint dftmerge_loop (fuel : nat) (ck : bool) (n m : nat) : SX unit :=
    if n <? m then sret tt
    else match fuel with
    | 0 => fun x => (x, Panic)
    | S fuel' =>
        let! w := lift (fft_err (c_new f0 ((lit (-2) 1 * PI_) / fofnat m)%F)) in
        let! v := lift (fft_err (c_new f0 f0)) in
        let! w := lift (fft_err (exec c_expo w)) in
        for_ (range 0 (m / 2)) (fun k => for_ (step_by 0 n m) (dftmerge_body ck m k v)) ;;!
        let! m' := lift (if 2 * m <? 256 then Ok (2 * m) else if ck then Panic else Ok ((2 * m) mod 256)) in
        dftmerge_loop fuel' ck n m'
    end.
  Definition dftmerge (ck : bool) (self : FFT) : SX unit :=
    dftmerge_loop 8 ck (fft_n self) 2.
End F32.
