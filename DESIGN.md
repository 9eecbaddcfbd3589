# Formal model of OpenAHRS_RustLib

## Layout

* `properties.jsonl` - the properties in English; `MANIFEST.json` - which theorem settles which property.
* `rocq/theories/M_*.v` - the model: definitions only, no proofs.
* `rocq/theories/S_*.v` - the specification vocabulary in which the properties are stated: textbook notions
  (real matrices and quaternions as functions, permutations, automata of calls, ...) that do not use the
  model's own helper functions.
* `rocq/theories/P_*.v` - lemmas and proofs.
* `rocq/theories/T_*.v` - the property theorems, one `Theorem` / `exact lemma` / `Print Assumptions` each, next to
  the examples that meet their hypotheses.  These files are generated by `tools/gen_properties.py` from
  the marked lemmas of `P_*.v`, so that statements and proofs cannot drift apart.
* `ASSUMPTIONS.md` - what `Print Assumptions` lists for every property theorem (`tools/assumptions.py`).
* `seeded/LOG.jsonl` - wrong programs the theorems were tried against, and what failed.

Theorem names start with the id of their property.  A name ending in `_refuted` is a proved `exists`
(or `forall libm, exists`) statement: a witness that an expected behaviour does not hold.

## What is modelled

The Rust workspace crates `utils`, `linalg`, `quaternion`, `open_ahrs`, `dsp`
are transcribed function by function into Gallina (files `theories/M_*.v`).
Each definition cites the /repo file and lines it transcribes.

| Rust | model |
|------|-------|
| utils/src/lib.rs, linalg/src/common.rs | M_Utils.v |
| linalg/src/vector.rs | M_Vector.v (matrix-valued functions: M_Matrix.v) |
| linalg/src/matrix.rs, linalg/src/linalg.rs | M_Matrix.v |
| quaternion/src/quaternion.rs | M_Quaternion.v |
| open_ahrs/src/{gyrometer,accelerometer,magnetometer}.rs, errors and Omega matrix of common.rs | M_Sensors.v |
| open_ahrs/src/{ar,davenport}.rs, generate_random_attitudes of common.rs | M_Ar.v |
| open_ahrs/src/aqua.rs | M_Aqua.v |
| print and print_attitude of vector.rs, matrix.rs, ar.rs | M_Print.v (output is a list of tokens) |
| dsp/src/{complex,fft}.rs | M_Dsp.v |

* **Control flow, errors, panics.**  `Result<A,E>` is `res E A := Ok a | Err e | Panic`.
  A `&mut self` method is a function `S -> S * res E A` (monad `ST`), so the state
  left behind by a failing call is visible in the model.  `Panic` stands for array
  index out of bounds and for integer overflow when overflow checks are on; functions
  whose integer arithmetic can overflow take a flag `ck` (overflow checks on/off) and
  wrap modulo 2^8 / 2^64 when it is off.
* **Integers.** `u8`, `u16`, `u64` values are `nat`/`N`, the wrap points are explicit.
* **Floats.**  The model is parametric in a record `Arith` of operations without laws
  (carrier, + - * /, negation, abs, sqrt, <, <=, is_nan, is_inf, decimal literals,
  sin, cos, asin, acos, atan2, pow).  It is instantiated twice:
  * `F32 lm` : IEEE-754 binary32, round to nearest even, from Flocq's
    `BinarySingleNaN` (a single NaN: payloads are not observable through the API).
    `sqrtf` is the correctly rounded square root and `fabsf` is exact.  The transcendental libm functions
    are an arbitrary record `lm : Libm` of functions: theorems about `F32 lm` hold for
    every libm, or state what they need of it.
  * `RX` : exact real arithmetic with one extra "undefined" value standing for the
    result of 0-division, roots of negatives, arcsine/arccosine out of domain etc.
    Theorems about `RX` are the "exact arithmetic" statements: they say which formula
    the algorithm evaluates, they do not bound rounding errors.
  * theorems quantified over `Arith` hold for both; the few laws they need (0 and 1 are finite numbers, ...)
    are the class `ArithOk` of S_Spec.v, proved for both instances in P_Inst.v.
* **Storage.** The fixed arrays `[T; M_MAX]` and `[T; M_MAX * N_MAX]` (both constants are 4) are lists of that length and stay part of the state, so that
  stale storage behind a resized container is visible (C04).  Generic `Vector<T>`/`Matrix<T>` methods are modelled
  for the element types the workspace uses (`f32` through `Arith`, `u8` index vectors).
* Loops are folds over explicit index lists; `break` and early `return` are explicit.
* `dftmerge` works on the slice it is given: the slice is the state.
* The random generator of `generate_random_attitudes` is an arbitrary stream of `u64`.
* **Reachability.** C01 quantifies over whole programs: S_Reach.v lists the public operations of Matrix, Vector
  and Quaternion and defines what a program that calls them in any order with any arguments can hold.  The
  filters' histories (S_Ar.v, S_Dav.v, S_Aqua.v) are automata over the calls and their arguments.

## What is not modelled

how `print*` writes a number with three decimals, `temp/**` (not part of the workspace), the empty
files `ekf.rs famc.rs flae.rs hpf.rs lpf.rs`, unit tests, the `pid` constructor (a struct of four constants, no other method exists), commented-out code,
`Debug` formatting and `From` conversions between error types other than their effect on `?`, NaN payloads,
timing, code generation (we assume strict binary32 evaluation, no fused
operations), the concrete libm approximations of sin/cos/..., the concrete random
generator (an oracle stream).

## Trusted base

* Coq 8.16.1 kernel (including `vm_compute`), Flocq 4.1.0 definitions of binary32.
* Fidelity of the transcription (checked by reading; the code is not run here).
* The statements: the specification vocabulary of S_*.v and the theorem statements in T_*.v.
* Axioms: only those of the standard library's real numbers and classical logic.  `Print Assumptions` follows
  every theorem in `theories/T_*.v`; ASSUMPTIONS.md lists the result per theorem.  It is one of: no axiom at all
  (theorems about every `Arith`), or a subset of
  `ClassicalDedekindReals.sig_forall_dec`, `ClassicalDedekindReals.sig_not_dec`,
  `FunctionalExtensionality.functional_extensionality_dep`, `Classical_Prop.classic`.
  No axiom, parameter or unproved hypothesis is added.

## Properties and how they are proved

Legend: G = proved for every `Arith` (hence for f32), F = proved for f32 (every libm),
R = proved in exact arithmetic, W = violation proved by a witness (or universally).

| id | level | approach |
|----|-------|----------|
| C01 | G,F | mutual inductive closure of all API operations; each preserves well-formedness |
| C02 | G | case analysis + injectivity of row-major indexing |
| C03 | G | case analysis; W for failed reinit (universal) |
| C04 | G | computation on fresh storage; W |
| C05 | G | sequential-write lemma over the column/row cells |
| C06 | G | same, with shifting loops; round trip by composing the two specs |
| C07 | G | universal statement about the post state of a failing insertion + W |
| C08 | G | one lemma on sequential guarded writes (`first failing cell`), instantiated per operation |
| C09 | G | computation on the never-initialised object |
| C10 | G,R,F | write lemma; finite sums in R; Flocq exactness of 0*x, 1*x, x+0; commutativity of binary32 product |
| C11 | G | write lemma |
| C12 | G | write lemma, Z arithmetic for i8 |
| C13 | G,F,R | short-circuit loop lemma; W |
| C14-C16 | R | Hoare-style loop invariants for partial correctness, over real matrices as functions; W in f32; exact refusal criterion for 2 x 2 and 3 x 3 in every arithmetic (S_Pivot, P_Pivot) |
| C17 | R | the 24 permutations, `ring` |
| C18 | R | from C14, determinant multiplicativity on triangular factors per permutation; W |
| C19-C20 | R/G | symbolic execution for n<=4; exact success criteria for n<=3 (P_LuIff); W; universal failure |
| C21 | R | Gram-Schmidt invariant; universal failure for non-square |
| C22 | R | column invariant; W |
| C23-C25 | G,R,F | from product/transposition specs; adjugate in f32 from the soundness of the recognition (P_Sound); W |
| C26 | R,F | similarity invariant over iterations; universal theorem for 0 and 1 iterations |
| C27 | R | sums of squares |
| C28 | F | standard model of rounding from Flocq (relative error 2^-24 + underflow); W |
| C29 | G,F | write lemma, commutativity |
| C30 | G,R | guard analysis; trigonometric identities; W |
| C31-C33 | R | `ring`/`nsatz` on components |
| C34-C37 | R,G | case analysis on branches; W |
| C38-C40 | G,F | write lemmas for the 3x3 and 3x1 storage; Flocq exactness for the default configuration |
| C41 | G | invariant over histories |
| C42 | F | C28 lifted by induction over histories |
| C43-C44 | R | trigonometric addition formulas; W |
| C45 | G | invariant "sensors are never initialised" over histories |
| C46 | G | invariant over histories |
| C47 | R | branch analysis, field identities with square roots |
| C48 | G | relational: two states with same calibration |
| C49 | R,F | sign analysis; W |
| C50 | G | case analysis; W |
| C51 | F | C28 |
| C52-C55 | G,R | direct; finite domain for bit reversal |
| C56 | R | closed form of each step (Euler, tilt quaternion, lerp/slerp, heading quaternion) composed; W |
| C57 | R | induction over updates with C56 |
| C58 | R | the composition of C56 with a tilt quaternion that is not of norm one; W |
| C59 | R | C56 with zero gains, half-angle formulas, mean value theorem for atan; W |
| C60 | F | forward error of sums and products (standard model, underflow term); quaternion norm as a metric; W |
| C61 | F | C60 entry by entry for the rotation matrix, then the matrix-vector product |
| C62 | F | error of each machine operation of the closed form, C60, C28; the exact turn is an isometry, so errors add up by induction over runs |
| C63 | F | every machine operation of the AM update carried through with its relative error (S_Reading, P_F32App, P_F32Am), then geometry (P_AmGeo); W by evaluation for a measurement of zero |
| C64 | G | induction over the printing loops; the containers by C01 |
| C65 | R, F | a QR step on a symmetric positive definite matrix is two Cholesky LR steps (P_QrConv): every leading partial trace grows by the squares outside the block, which bounds both the number of steps and the off-diagonal part at the stop; W by evaluation in f32 |
| C66 | F | each machine operation of the MARG update is bounded (P_MargRun, P_RestF); the two corrections act on the turn still missing (P_RestGeo), which gives a contraction per update and, by induction, a bound after n updates (P_Rest32) |
| C67 | F | C63 bounds the update against the measurements; off_vertical keeps the field off the measured vertical, tilt_of and heading_of turn the two residues into tilt and heading of the missing turn (P_AmTrue) |
| C68 | F | loop invariant for the elimination steps with errors relative to the magnitudes of the factors (lu_err), one such bound per substitution, lu_residual puts the three together; the factor 2^-124 absorbs underflow (S_Lu32, P_Lup32) |
| C69 | F | the five arguments are entries of the rotation matrix up to 5 h + 9e-7 (as in C61); polar_close and asin_close turn that into angles (S_Euler32, P_Euler32) |
| C70 | F | row sums / quaternion product (C60), relative error under normalisation, angle 2 atan(|w|t/2) against |w| t (C59), isometry and induction over runs (S_First, P_ArFirst) |
| C71 | F | closed form of every cell for any arithmetic (cols_wp), then rounding errors of sums, sqrt, (1/d)*w backwards from finite results (S_Chol32, P_Chol32) |
| C72 | F | error of trace, clip, sqrt and sign per component, then the normalisation bound of C70 (P_Chia) |
| C73 | F | closed form of each column for any arithmetic (gs_wp), error of each projection, then linear algebra: the implicit triangular factor and the Gram matrix solve triangular systems (P_Qr32); W by evaluation |
| C74 | F | exact pivot row of every step for any arithmetic (lup_step_run), backward error of C68, row-wise change of the determinant (P_Recog); W by evaluation; exact angle ranges accepted about each axis over R (P_Pivot); acceptance in f32 from the elements alone (P_Accept); soundness of a yes (P_Sound); the sign of the determinant of a recognised matrix, from the pivots being at least EPSILON and the Schur complement of the first pivot (P_Proper, P_Proper2); an exact rotation next to a recognised matrix by orthonormalising its rows (P_Near) |
| C75 | F | norm and normalize in f32 (P_FErr, P_Norm32), Lipschitz sine and cosine, relative error of 1/n^2 (P_Inv32); the factor e^w as a relative error of pow (pow_e in S_Exp32, P_Exp32) |
| C76 | F | weights sin(wt)/sin t by Lipschitz sine and MVT for acos (P_Interp32) |
| C77 | F | trace and root as in C72 but with linear error away from half turns (P_Hughes32) |
| C78 | F | C38 plus the rounded sums of C61 (P_Calib32) |
| C79 | F | calibration error turned into a change of direction, then C67 (P_Raw) |
| C80 | F | branch condition keeps both branches away from their singular points; relative root lemma (P_Sara32) |
| C81 | F | accumulated rounding of up to 16 squares, then root_rel (P_Frob) |
| C82 | G | readable cells (P_Size) |
| C83 | F | sample, ar_feed, rate_error, bounded (S_RawGyr) |
| C84 | R | taylor_cells, turn, qdist (S_Ar, S_F32) |
| C85 | F | cplx_f, cdist, csizeable, cmul, cabs, cpolar (S_Cplx32, S_Dsp) |
| C86 | F | mat_f, rdet, rpermanent, amp, ulow, upp (S_F32, S_Lu, S_Lu32, S_Det32) |
| C87 | F | turns, turns_left, rate_error, bounded, pow_one (S_Track, S_First, S_RawGyr), libm_angles, euler_of, angles_within (S_Euler32, S_Angles) |
| C88 | F | rodrigues, cross_m, libm_accurate, acos_accurate, acos_edge (S_Decomp, S_Track, S_Interp32), rotmat, qunit (S_Quat) |
| C89 | F | euler_of, angles_within (S_Angles), tilt_error, heading_error (S_Rest), libm_angles (S_Euler32) |
| C90 | G, R, F | alike, calm, steady (S_Twin), marg_state, measures, aq_run (S_AquaM), marg32, at_rest (S_Rest), dead_gain (S_Aqua), libm_angles, euler_of, angles_within (S_Euler32, S_Angles) |
| C91 | F | shows_body, shows_frame, shows_matrix, turns_as (S_Direct), tilt_error, heading_error (S_Rest), turns (S_Track), alike, steady (S_Twin) |

## Examples and wrong programs

Beside the theorems there are `Example`s with concrete states and inputs that meet the hypotheses.  Those
proved by `vm_compute` or by evaluating one input are tests, not proofs of the property.  Examples that need objects from
several places (C03, C04, C07, C41, C44, C46, C55) are in T_Witness.v.

`tools/mutate.py` copies the development elsewhere, applies an edit to a model definition as a plausible bug would, rebuilds, and
reports the theorems that no longer hold; `seeded/LOG.jsonl` records each attempt.
