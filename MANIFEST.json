{
 "claims": [
  {
   "property": "C01",
   "status": "proved",
   "theorems": [
    "C01_matrix",
    "C01_vector",
    "C01_vector_u8",
    "C01_no_panic",
    "C01_checked_panic",
    "C01_panics_refuted"
   ],
   "note": "Reachability by any number of calls of the 131 public functions listed in S_Reach (any arguments, successful or not). Generic in the arithmetic. print, is_initialized and the crate-private set_rows/set_cols are not in the list. That the panics exist is proved by witnesses (C01_panics_refuted)."
  },
  {
   "property": "C02",
   "status": "proved",
   "theorems": [
    "C02_matrix_set_element",
    "C02_matrix_get_element",
    "C02_vector_set_element",
    "C02_vector_get_element"
   ],
   "note": "Full decision table of get_element/set_element for matrices and vectors, with the frame law, over any arithmetic instance (so f32 with any libm)."
  },
  {
   "property": "C03",
   "status": "proved",
   "theorems": [
    "C03_matrix_init",
    "C03_matrix_reinit",
    "C03_reinit_keeps_usable_refuted",
    "C03_vector_init",
    "C03_vector_reinit"
   ],
   "note": "init succeeds exactly on 1..4 dims and fails with the stated error otherwise; reinit clears the flag; the naive expectation that reinit leaves a usable object is refuted with a witness."
  },
  {
   "property": "C04",
   "status": "proved",
   "theorems": [
    "C04_fresh_matrix_zero",
    "C04_fresh_vector_zero",
    "C04_reinit_exposes_old_storage",
    "C04_reinit_zero_refuted"
   ],
   "note": "Fresh objects read zero; re-initialised objects expose the old storage (the property's VIOLATION part), with a refutation witness."
  },
  {
   "property": "C05",
   "status": "proved",
   "theorems": [
    "C05_set_row",
    "C05_set_col",
    "C05_get_row",
    "C05_get_col",
    "C05_row_to_vector",
    "C05_col_to_vector",
    "C05_set_row_get_row"
   ],
   "note": "Row/column setters and getters, including every error case."
  },
  {
   "property": "C06",
   "status": "proved",
   "theorems": [
    "C06_add_row",
    "C06_add_col",
    "C06_add_to_full",
    "C06_del_row",
    "C06_del_after_add"
   ],
   "note": "Insertion, deletion, refusal on full/only-row matrices, and the round trip."
  },
  {
   "property": "C07",
   "status": "proved",
   "theorems": [
    "C07_add_row_not_atomic",
    "C07_add_col_not_atomic",
    "C07_atomic_insertion_refuted"
   ],
   "note": "The property is a VIOLATION statement: every wrong-length or past-the-end insertion leaves the matrix enlarged; concrete f32 witness."
  },
  {
   "property": "C08",
   "status": "proved",
   "theorems": [
    "C08_matrix_out_of_place",
    "C08_matrix_in_place",
    "C08_matrix_new",
    "C08_vector_out_of_place",
    "C08_vector_in_place",
    "C08_vector_new",
    "C08_size_mismatch_matrix",
    "C08_size_mismatch_vector",
    "C08_variants_agree"
   ],
   "note": "Pointwise meaning of all element-wise operations in all variants, including which prefix has been written when an element overflows."
  },
  {
   "property": "C09",
   "status": "proved",
   "theorems": [
    "C09_matrix_refuses",
    "C09_vector_refuses",
    "C09_fresh_matrix_other_errors",
    "C09_uninitialised_use_refuted",
    "C09_u8_underflow"
   ],
   "note": "Uninitialised receivers are refused with the documented error; the operations that escape the check are listed and shown by witness (VIOLATION part)."
  },
  {
   "property": "C10",
   "status": "proved",
   "theorems": [
    "C10_mul",
    "C10_mul_new",
    "C10_real_product",
    "C10_real_associative",
    "C10_real_distributive",
    "C10_real_identity",
    "C10_f32_identity",
    "C10_f32_identity_bits_refuted",
    "C10_f32_transpose",
    "C10_f32_transpose_success"
   ],
   "note": "Complete outcome of mul/mul_new over any arithmetic; ring laws over exact reals; identity and transpose laws bit-level in f32, with the negative-zero exception refuted by witness."
  },
  {
   "property": "C11",
   "status": "proved",
   "theorems": [
    "C11_transpose",
    "C11_transpose_twice",
    "C11_transpose_new"
   ],
   "note": "transpose/transpose_new swap the indices for every shape, leave the shape consistent, and are involutive."
  },
  {
   "property": "C12",
   "status": "proved",
   "theorems": [
    "C12_diag",
    "C12_diag_default",
    "C12_identity",
    "C12_trace"
   ],
   "note": "All i8 offsets and all shapes, with and without overflow checks; fill_identity and trace too."
  },
  {
   "property": "C13",
   "status": "proved",
   "theorems": [
    "C13_matrix_equal",
    "C13_vector_equal",
    "C13_symmetric",
    "C13_upper_triangular",
    "C13_upper_triangular_tall",
    "C13_lower_triangular",
    "C13_allclose_symmetric",
    "C13_allclose_reflexive",
    "C13_tall_zero_refuted",
    "C13_lower_wide_refuted"
   ],
   "note": "Each predicate is shown to decide its specification for all inputs; the tall upper-triangular and wide lower-triangular violations are proved with witnesses."
  },
  {
   "property": "C14",
   "status": "proved",
   "theorems": [
    "C14_factors",
    "C14_permutation_f32",
    "C14_positive_column",
    "C14_complete_refuted",
    "C14_complete_real_refuted",
    "C14_two",
    "C14_three",
    "C14_three_real"
   ],
   "note": "Exact-real soundness (C14_factors), permutation in binary32, and the violation of completeness in binary32 and over the reals."
  },
  {
   "property": "C15",
   "status": "proved",
   "theorems": [
    "C15_solve",
    "C15_unique"
   ],
   "note": "Exact reals; uniqueness of the solution included."
  },
  {
   "property": "C16",
   "status": "proved",
   "theorems": [
    "C16_invert",
    "C16_iff",
    "C16_guards",
    "C16_unchanged_f32_refuted"
   ],
   "note": "Exact reals for the inverse and for unchanged-on-failure; C16_unchanged_f32_refuted shows binary32 failure can leave rows overwritten."
  },
  {
   "property": "C17",
   "status": "proved",
   "theorems": [
    "C17_det_naive",
    "C17_guards"
   ],
   "note": "Exact reals: det_naive is the expansion along the first row for every initialised square matrix; guards and no-panic for every arithmetic."
  },
  {
   "property": "C18",
   "status": "proved",
   "theorems": [
    "C18_det",
    "C18_small",
    "C18_square",
    "C18_sign_refuted"
   ],
   "note": "Exact reals: det equals the determinant up to 3x3, and up to the sign flip by a double transposition for 4x4; sign violation witnessed in binary32."
  },
  {
   "property": "C19",
   "status": "proved",
   "theorems": [
    "C19_four",
    "C19_small",
    "C19_three",
    "C19_refuted",
    "C19_succeeds"
   ],
   "note": "Exact reals: L R = A up to 2x2, and the exact condition for it at 3x3 and 4x4; 3x3 violation witnessed in binary32."
  },
  {
   "property": "C20",
   "status": "proved",
   "theorems": [
    "C20_small",
    "C20_three",
    "C20_four",
    "C20_three_refuted",
    "C20_singular",
    "C20_singular_f32",
    "C20_refuted",
    "C20_succeeds"
   ],
   "note": "Exact reals: L U = A up to 2x2 on success, and the exact condition for it at 3x3 and 4x4. Exact reals and binary32: singular answers and violation witnesses."
  },
  {
   "property": "C21",
   "status": "proved",
   "theorems": [
    "C21_qr",
    "C21_nonsquare",
    "C21_nonsquare_refuted",
    "C21_early_stop_refuted"
   ],
   "note": "Exact reals: Q orthogonal, R upper, QR=A unless A is near singular (some vector with a component 1 sent below EPSILON); non-square never succeeds, for every arithmetic; early-stop violation witnessed in binary32."
  },
  {
   "property": "C22",
   "status": "proved",
   "theorems": [
    "C22_chol",
    "C22_psd",
    "C22_pd",
    "C22_pd_accepts",
    "C22_zero_refuted",
    "C22_asymmetric_refuted"
   ],
   "note": "Exact reals: factorisation, semi-definiteness, minors test (complete up to 3x3), positive definite matrices up to 3x3 never rejected; both violations witnessed in binary32."
  },
  {
   "property": "C23",
   "status": "proved",
   "theorems": [
    "C23_recognise",
    "C23_real",
    "C23_complete",
    "C23_rejected_refuted"
   ],
   "note": "Soundness for every arithmetic; exact decision over the reals up to 3x3; violation witnessed in binary32. Determinants of 4x4 carry the sign error of C18."
  },
  {
   "property": "C24",
   "status": "proved",
   "theorems": [
    "C24_log",
    "C24_skew",
    "C24_rodrigues",
    "C24_plane_refuted",
    "C24_identity"
   ],
   "note": "Exact reals for every matrix accepted, Rodrigues form for 3x3; identity violation in binary32 for every libm with acos 1 = 0 and sin 0 = 0; plane-rotation violation over the reals."
  },
  {
   "property": "C25",
   "status": "proved",
   "theorems": [
    "C25_adjugate",
    "C25_adjugate_refuted",
    "C25_dlyap",
    "C25_dlyap_unsolved",
    "C25_adjugate32"
   ],
   "note": "Exact reals for the orthogonal case, f32 for recognised rotations; adjugate violation in binary32; dlyap violation for every arithmetic."
  },
  {
   "property": "C26",
   "status": "proved",
   "theorems": [
    "C26_outcome",
    "C26_eigen",
    "C26_regular",
    "C26_budget",
    "C26_shift_1x1",
    "C26_scalar_shift"
   ],
   "note": "Outcome for every arithmetic; orthogonality, similarity and trace over the reals for every iteration count; zero-eigenvalue, 1x1 and scalar-block violations in binary32 and over the reals."
  },
  {
   "property": "C27",
   "status": "proved",
   "theorems": [
    "C27_norm",
    "C27_normalize",
    "C27_normalize_small"
   ],
   "note": "Exact reals, all vectors of length 1..4."
  },
  {
   "property": "C28",
   "status": "proved",
   "theorems": [
    "C28_normalize_f32",
    "C28_versor",
    "C28_normalized_is_versor",
    "C28_overflow",
    "C28_normalize_total",
    "C28_overflow_refuted"
   ],
   "note": "Full rounding-error analysis over all f32 vectors in the range (any libm, since only sqrt and + * / are used); the overflow violation is proved for every vector with a component of magnitude at least 2^64 and by witness."
  },
  {
   "property": "C29",
   "status": "proved",
   "theorems": [
    "C29_dot",
    "C29_dot_symmetric",
    "C29_dot_real",
    "C29_outer",
    "C29_outer_transpose"
   ],
   "note": "Values over any arithmetic; symmetry and transposition bit-exact in f32."
  },
  {
   "property": "C30",
   "status": "proved",
   "theorems": [
    "C30_alpha_f32",
    "C30_alpha_real",
    "C30_lerp",
    "C30_lerp_end_points",
    "C30_slerp",
    "C30_slerp_end_points",
    "C30_slerp_identical",
    "C30_slerp_identical_refuted"
   ],
   "note": "Range check bit-level in f32; lerp and slerp laws over exact reals; the failure on identical unit vectors is proved for all of them."
  },
  {
   "property": "C31",
   "status": "proved",
   "theorems": [
    "C31_machine_product",
    "C31_hamilton",
    "C31_laws",
    "C31_norm",
    "C31_units",
    "C31_conjugate_f32",
    "C31_sizes"
   ],
   "note": "Machine-level meaning of mul/mul_new over any arithmetic (aliasing included), Hamilton algebra over exact reals, bit-exact conjugation involution in f32, refusal of every other size."
  },
  {
   "property": "C32",
   "status": "proved",
   "theorems": [
    "C32_inverse",
    "C32_small",
    "C32_size"
   ],
   "note": "Both sides of the EPSILON threshold, and the size refusal."
  },
  {
   "property": "C33",
   "status": "proved",
   "theorems": [
    "C33_dcm",
    "C33_double_cover",
    "C33_double_cover_real",
    "C33_product",
    "C33_rotate",
    "C33_sizes"
   ],
   "note": "Rotation laws over exact reals; the double cover is also proved bit-exactly in f32 with any libm."
  },
  {
   "property": "C34",
   "status": "proved",
   "theorems": [
    "C34_chiaverini",
    "C34_chiaverini_round_trip",
    "C34_chiaverini_half_turn",
    "C34_chiaverini_clipped",
    "C34_hughes",
    "C34_sarabandi",
    "C34_sarabandi_refuted",
    "C34_hughes_near_identity",
    "C34_hughes_near_half_turn"
   ],
   "note": "Positive round trip plus each violation as a general theorem over all unit quaternions, and a concrete witness."
  },
  {
   "property": "C35",
   "status": "proved",
   "theorems": [
    "C35_euler",
    "C35_bounds",
    "C35_pitch_refuted"
   ],
   "note": "Angle reconstruction and ranges over exact reals; f32 violation witnessed on the normalised (3,0,3,0) for every libm (NaN follows for a libm that answers NaN above 1, as the C standard requires)."
  },
  {
   "property": "C36",
   "status": "proved",
   "theorems": [
    "C36_pure",
    "C36_general",
    "C36_in_place",
    "C36_real",
    "C36_refuted"
   ],
   "note": "Positive formulae for exp and exp_new, the real-quaternion violation for all real quaternions, and a witness for the disagreement."
  },
  {
   "property": "C37",
   "status": "proved",
   "theorems": [
    "C37_get",
    "C37_get_vector_part",
    "C37_set",
    "C37_fill",
    "C37_is_real",
    "C37_is_versor",
    "C37_is_versor_real",
    "C37_sizes"
   ],
   "note": "Accessors with frame laws and predicates with their exact decision regions, in any arithmetic; is_versor also read over exact reals."
  },
  {
   "property": "C38",
   "status": "proved",
   "theorems": [
    "C38_new",
    "C38_config",
    "C38_update",
    "C38_default"
   ],
   "note": "Every arithmetic, after every history of calls; default pass-through in binary32."
  },
  {
   "property": "C39",
   "status": "proved",
   "theorems": [
    "C39_lifecycle",
    "C39_failed_update",
    "C39_set_config_not_atomic",
    "C39_uncorrected_refuted"
   ],
   "note": "Every arithmetic, after every history of calls; overflow violation also witnessed in binary32."
  },
  {
   "property": "C40",
   "status": "proved",
   "theorems": [
    "C40_acc_gyr",
    "C40_mag",
    "C40_mag_xz_refuted"
   ],
   "note": "Every arithmetic, after every history of calls; xz violation also witnessed in binary32."
  },
  {
   "property": "C41",
   "status": "proved",
   "theorems": [
    "C41_lifecycle",
    "C41_stuck_refuted",
    "C41_nan_period"
   ],
   "note": "Every arithmetic, after every history of calls; stuck filter also witnessed in binary32."
  },
  {
   "property": "C42",
   "status": "proved",
   "theorems": [
    "C42_unit",
    "C42_history",
    "C42_zero_absorbing",
    "C42_zero_refuted",
    "C42_failed_update_refuted"
   ],
   "note": "binary32 with any libm, after every history; zero attitude is absorbing, and witnesses show how it is reached and how a failed update leaves a half-written attitude."
  },
  {
   "property": "C43",
   "status": "proved",
   "theorems": [
    "C43_closed_form",
    "C43_repeat",
    "C43_kinematics"
   ],
   "note": "Exact-real instance, after every history of calls; closed form, n updates = one update over n*ts, and the kinematic equation dq/dt = q(0,w)/2; the f32 counterpart (norm control) is C42."
  },
  {
   "property": "C44",
   "status": "proved",
   "theorems": [
    "C44_taylor",
    "C44_taylor_1",
    "C44_euler",
    "C44_euler_differs",
    "C44_euler_refuted",
    "C44_taylor_2_refuted",
    "C44_taylor_panics",
    "C44_unsupported"
   ],
   "note": "Taylor (any order up to 20) and Euler steps characterised in exact arithmetic after every history; disagreement of the two first-order methods stated for every attitude and rate with non-parallel axes, with witnesses; order >= 21 panics for every rotating update; unsupported methods in f32."
  },
  {
   "property": "C45",
   "status": "proved",
   "theorems": [
    "C45_lifecycle",
    "C45_never",
    "C45_weights",
    "C45_stuck_refuted",
    "C45_attitude"
   ],
   "note": "C45_lifecycle and C45_never hold for every arithmetic and every history: no update ever succeeds. C45_weights gives the exact f32 weight condition, C45_stuck_refuted a history after which no init can succeed. C45_attitude: the calculation that follows the refused sensor update never writes the attitude in any case."
  },
  {
   "property": "C46",
   "status": "proved",
   "theorems": [
    "C46_lifecycle",
    "C46_configure",
    "C46_stuck_refuted",
    "C46_unchecked_refuted"
   ],
   "note": "C46_lifecycle: for every arithmetic and every history of calls, by the phase of an automaton driven by the arguments only. C46_configure: re-configuration. Violations: C46_stuck_refuted (a failed init blocks the filter for ever), C46_unchecked_refuted (NaN period, gains and thresholds out of range accepted)."
  },
  {
   "property": "C47",
   "status": "proved",
   "theorems": [
    "C47_attitude"
   ],
   "note": "Exact real arithmetic, every reachable initialised filter in mode AM, every calibration and measurement with |a| > EPSILON; the previous attitude and the gyrometer arguments do not matter. Accelerations of norm at most EPSILON are not normalised by the code and are outside the claim."
  },
  {
   "property": "C48",
   "status": "proved",
   "theorems": [
    "C48_history_free"
   ],
   "note": "For every arithmetic (hence f32 with any libm): two filters in AM mode after arbitrary different histories, equal calibrations, same measurements: same attitude after a successful update."
  },
  {
   "property": "C49",
   "status": "proved",
   "theorems": [
    "C49_gain",
    "C49_negative",
    "C49_dead",
    "C49_between_f32",
    "C49_between_real",
    "C49_between_refuted",
    "C49_dead_refuted"
   ],
   "note": "C49_gain (any arithmetic, any history); C49_between_f32, C49_between_real, C49_negative, C49_dead prove the violations in general, C49_between_refuted and C49_dead_refuted give concrete reachable filters."
  },
  {
   "property": "C50",
   "status": "proved",
   "theorems": [
    "C50_gyro",
    "C50_not_finite",
    "C50_errors",
    "C50_overwritten_refuted"
   ],
   "note": "Any arithmetic, any history; C50_overwritten_refuted is the violation (magnetometer reading of zero)."
  },
  {
   "property": "C51",
   "status": "proved",
   "theorems": [
    "C51_unit",
    "C51_history"
   ],
   "note": "f32, any libm, any history, both modes; C51_history along any sequence of calls in which no update fails. \"Or zero\" is part of the claim: normalisation flushes tiny quaternions to zero."
  },
  {
   "property": "C52",
   "status": "proved",
   "theorems": [
    "C52_new",
    "C52_new_refuted",
    "C52_field",
    "C52_div",
    "C52_polar",
    "C52_set",
    "C52_unchecked_refuted"
   ],
   "note": "Field operations, division guard, polar form, exponential in exact arithmetic (RX); C52_new and C52_new_refuted: the constructor discards its arguments; C52_unchecked_refuted: unchecked overflow and NaN in f32."
  },
  {
   "property": "C53",
   "status": "proved",
   "theorems": [
    "C53_bitrev",
    "C53_involution",
    "C53_dftmerge"
   ],
   "note": "bitrev for every n and b; dftmerge for every slice, every libm and both overflow-check settings."
  },
  {
   "property": "C54",
   "status": "proved",
   "theorems": [
    "C54_in_range",
    "C54_clip",
    "C54_minmax",
    "C54_minmax_refuted",
    "C54_sign",
    "C54_factorial",
    "C54_int",
    "C54_allclose"
   ],
   "note": "All for f32 with Flocq floats; allclose decision in exact arithmetic."
  },
  {
   "property": "C55",
   "status": "proved",
   "theorems": [
    "C55_stream",
    "C55_value",
    "C55_refuted"
   ],
   "note": "C55_stream holds for any arithmetic; C55_value gives the constant result in exact arithmetic; C55_refuted exhibits two streams with different words."
  },
  {
   "property": "C56",
   "status": "proved",
   "theorems": [
    "C56_update",
    "C56_factor",
    "C56_wrong_way_refuted"
   ],
   "note": "C56_update characterises the whole update for accelerations of norm one (other norms: C58); the wrong-way correction is C56_wrong_way_refuted."
  },
  {
   "property": "C57",
   "status": "proved",
   "theorems": [
    "C57_tilt",
    "C57_heading"
   ],
   "note": "Rates of convergence proved for any number of updates; C57_heading starts from a level attitude."
  },
  {
   "property": "C58",
   "status": "proved",
   "theorems": [
    "C58_scaled",
    "C58_fails",
    "C58_gravity_refuted",
    "C58_level_refuted"
   ],
   "note": "C58_scaled covers the straight-interpolation branch with downward predicted gravity; C58_fails the failing region; two refuted claims."
  },
  {
   "property": "C59",
   "status": "proved",
   "theorems": [
    "C59_gyro",
    "C59_turn",
    "C59_wrong_way_refuted"
   ],
   "note": "C59_gyro, C59_turn; the wrong direction is C59_wrong_way_refuted."
  },
  {
   "property": "C60",
   "status": "proved",
   "theorems": [
    "C60_dot",
    "C60_matrix_product",
    "C60_hamilton",
    "C60_associative",
    "C60_associative_exact_refuted",
    "C60_dot_nan_refuted"
   ],
   "note": "Forward error bounds for f32 and every libm, from the standard rounding model proved with Flocq; the exact laws that fail are refuted by witnesses."
  },
  {
   "property": "C61",
   "status": "proved",
   "theorems": [
    "C61_dcm",
    "C61_rotate",
    "C61_normalized",
    "C61_roundtrip"
   ],
   "note": "Error bounds for f32 and every libm; combines C60 with the normalisation bound of C28. Inputs outside the stated ranges (norm off by more than 1/100, vectors longer than 2^100) are not covered."
  },
  {
   "property": "C62",
   "status": "proved",
   "theorems": [
    "C62_step",
    "C62_track",
    "C62_dead_zone"
   ],
   "note": "f32, for every libm meeting the stated accuracy of sin and cos (a hypothesis of the theorem, not an axiom; an instance is exhibited). The Euler and Taylor methods are treated in C44 (exact) and C70 (f32)."
  },
  {
   "property": "C63",
   "status": "proved",
   "theorems": [
    "C63_attitude",
    "C63_free_fall_refuted"
   ],
   "note": "Rounding analysis of the whole update (P_F32App: each machine operation adds 6e-8 to a relative error; P_F32Am, P_AmGeo, P_Am32). The 1/1000 horizontal condition is needed because the heading error grows without bound when the field becomes vertical. Violation: free fall is reported as an attitude."
  },
  {
   "property": "C64",
   "status": "proved",
   "theorems": [
    "C64_vector",
    "C64_matrix",
    "C64_attitude",
    "C64_uninitialised_refuted"
   ],
   "note": "Output is modelled as a list of tokens; the decimal digits of a number are not modelled. Violation proved for new containers."
  },
  {
   "property": "C65",
   "status": "proved",
   "theorems": [
    "C65_accurate",
    "C65_converges",
    "C65_small_refuted"
   ],
   "note": "convergence and accuracy over the reals for the unshifted iteration; the shifted iteration and general f32 rounding are not covered; the absolute stopping threshold is shown to spoil small matrices in f32"
  },
  {
   "property": "C66",
   "status": "proved",
   "theorems": [
    "C66_update",
    "C66_rest",
    "C66_settles"
   ],
   "note": "Every machine operation of the MARG update is bounded (P_RestF), the geometry of the two corrections in terms of the missing turn is in P_RestGeo, one update and n updates in P_Rest32. The hypotheses (record marg32, at_rest, quiet, near_truth in S_Rest) exclude adaptive gain, attitudes far from the truth and corrections that fall below the interpolation threshold."
  },
  {
   "property": "C67",
   "status": "proved",
   "theorems": [
    "C67_accuracy"
   ],
   "note": "Follows from C63 (accuracy of one AM update against the measurements) and the geometry of the missing turn of C66 (P_RestGeo): the measurement errors and the rounding give a bound against the true attitude."
  },
  {
   "property": "C68",
   "status": "proved",
   "theorems": [
    "C68_factors",
    "C68_solve",
    "C68_inverse",
    "C68_solve_refuted"
   ],
   "note": "C68_factors, C68_solve and C68_inverse bound the error by the magnitudes of the factors; C68_solve_refuted shows that this is not small against the matrix, because the pivot search compares signed values."
  },
  {
   "property": "C69",
   "status": "proved",
   "theorems": [
    "C69_angles"
   ],
   "note": "The accuracy of asin and atan2 is a hypothesis (libm_angles), satisfied by angle_libm of the example. At gimbal lock see C35_pitch_refuted."
  },
  {
   "property": "C70",
   "status": "proved",
   "theorems": [
    "C70_taylor_step",
    "C70_euler_step",
    "C70_taylor_track",
    "C70_euler_track"
   ],
   "note": "pow(x, 1) accurate is a hypothesis (pow_one); Euler needs none. Orders above 1 are C44 (element-wise powers, wrong). Euler turns on the wrong side: C44_euler."
  },
  {
   "property": "C71",
   "status": "proved",
   "theorems": [
    "C71_factor",
    "C71_upper_2",
    "C71_triangular_refuted"
   ],
   "note": "Success is a hypothesis (C22 describes the positive-definiteness test over the reals). The bound concerns the lower triangle only: the part above it is the violation."
  },
  {
   "property": "C72",
   "status": "proved",
   "theorems": [
    "C72_chiaverini",
    "C72_round_trip",
    "C72_lost_refuted"
   ],
   "note": "The range of the vector components is the range in which the formula is right over the reals (C34 shows the clip at 1 breaks it beyond). The sign argument needs w away from zero."
  },
  {
   "property": "C73",
   "status": "proved",
   "theorems": [
    "C73_columns",
    "C73_orthogonal",
    "C73_noise_refuted"
   ],
   "note": "The absolute EPSILON makes the dichotomy absolute too: the exact decomposition is C21; here the loops are followed operation by operation. The bound needs sigma relative to M, since classical loss of orthogonality is proportional to the condition number."
  },
  {
   "property": "C74",
   "status": "proved",
   "theorems": [
    "C74_accepted",
    "C74_about_z32",
    "C74_near",
    "C74_near_orthogonal",
    "C74_about_z",
    "C74_about_x",
    "C74_about_y",
    "C74_sound_proper",
    "C74_reflection",
    "C74_sound_plane",
    "C74_refused",
    "C74_clockwise",
    "C74_det",
    "C74_recognised",
    "C74_answer_no_refuted",
    "C74_sound",
    "C74_sound_det"
   ],
   "note": "The pivot hypothesis is on the output of lup: because the search compares with the wrong column there is no closed condition on A that is much weaker. Exact-real counterpart: C23."
  },
  {
   "property": "C75",
   "status": "proved",
   "theorems": [
    "C75_exp_general",
    "C75_exp_in_place",
    "C75_exp_in_place_lost",
    "C75_exp_in_place_refuted",
    "C75_inverse",
    "C75_huge",
    "C75_exp",
    "C75_exp_small",
    "C75_huge_refuted"
   ],
   "note": "Exact-real counterparts: C32 and C36. Between the two thresholds (vector part with a component above 9.8e-5 but length below 2e-4) nothing is claimed."
  },
  {
   "property": "C76",
   "status": "proved",
   "theorems": [
    "C76_lerp",
    "C76_lerp_ends",
    "C76_slerp",
    "C76_parallel",
    "C76_parallel_refuted"
   ],
   "note": "Exact-real counterpart: C30. The exponent 3 is what the error analysis gives, no claim that it is optimal."
  },
  {
   "property": "C77",
   "status": "proved",
   "theorems": [
    "C77_hughes",
    "C77_round_trip",
    "C77_lost",
    "C77_conjugate_refuted"
   ],
   "note": "Exact-real counterpart: C34. Near half turns (|w| < 1/10) nothing is claimed in f32."
  },
  {
   "property": "C78",
   "status": "proved",
   "theorems": [
    "C78_calibration",
    "C78_axis",
    "C78_relative_refuted"
   ],
   "note": "Counterpart of C38 with the rounding bounded. The coefficient that multiplies each pair of axes is the one of C40 (the magnetometer's are misnamed)."
  },
  {
   "property": "C79",
   "status": "proved",
   "theorems": [
    "C79_raw"
   ],
   "note": "Combines C78 and C67; unlike C67 no hypothesis mentions a rounded value. The magnetometer coefficients are those actually applied (C40)."
  },
  {
   "property": "C80",
   "status": "proved",
   "theorems": [
    "C80_sarabandi",
    "C80_first_orthant",
    "C80_round_trip",
    "C80_signs",
    "C80_negative_refuted"
   ],
   "note": "Exact counterpart is C34_sarabandi. The main bound has no exception near half turns; the lost signs are stated as C80_signs and C80_negative_refuted."
  },
  {
   "property": "C81",
   "status": "proved",
   "theorems": [
    "C81_real",
    "C81_vector",
    "C81_float",
    "C81_overflow",
    "C81_underflow",
    "C81_total"
   ],
   "note": "The two violations are stated for all matrices beyond the thresholds, not for single witnesses."
  },
  {
   "property": "C82",
   "status": "proved",
   "theorems": [
    "C82_matrix_same_size",
    "C82_square",
    "C82_vector_same_size",
    "C82_convert",
    "C82_u8",
    "C82_u8_fresh"
   ],
   "note": "Sizes are characterised by what get_element can read, not by the size fields."
  },
  {
   "property": "C83",
   "status": "proved",
   "theorems": [
    "C83_feed",
    "C83_rates"
   ],
   "note": "Joins C78 (calibration in f32) and C62 (tracking in f32); success of each update is a conclusion. The true rate is constant during a sampling period."
  },
  {
   "property": "C84",
   "status": "proved",
   "theorems": [
    "C84_higher_orders",
    "C84_first_order"
   ],
   "note": "Violation of the expected accuracy, quantified over all rates and orders; strengthens the single witness of C44_taylor_2_refuted."
  },
  {
   "property": "C85",
   "status": "proved",
   "theorems": [
    "C85_sum",
    "C85_product",
    "C85_quotient",
    "C85_round_trip",
    "C85_module",
    "C85_polar",
    "C85_exponential",
    "C85_overflow"
   ],
   "note": "The bounds are relative to the modulus, as a single part can cancel. The limits on the size keep the squares from overflowing; C85_overflow shows what happens from 2^64 on."
  },
  {
   "property": "C86",
   "status": "proved",
   "theorems": [
    "C86_naive",
    "C86_det"
   ],
   "note": "Forward bound for det_naive, backward bound for det; the products of the magnitudes of L and U can be large because the pivot search compares signed values (C68_solve_refuted). The wrong sign is the one of C18."
  },
  {
   "property": "C87",
   "status": "proved",
   "theorems": [
    "C87_angles",
    "C87_taylor",
    "C87_euler"
   ],
   "note": "C70 composed with the f32 calibration bound C78 and the Lipschitz bound C83_rates. The left-handed product of Euler is the violation of C44."
  },
  {
   "property": "C88",
   "status": "proved",
   "theorems": [
    "C88_about_z",
    "C88_log",
    "C88_trace_three",
    "C88_small_refuted",
    "C88_attitude"
   ],
   "note": "The determinant hypothesis is needed: C74 shows rotations refused by lup. The failure generalises C24_identity from one matrix to a class; C88_small_refuted gives a proper rotation by 1/8192."
  },
  {
   "property": "C89",
   "status": "proved",
   "theorems": [
    "C89_angles",
    "C89_raw",
    "C89_rest",
    "C89_rates"
   ],
   "note": "Composes C79, C66 and C83 with C69; the new part is how tilt and heading errors move the three angles."
  },
  {
   "property": "C90",
   "status": "proved",
   "theorems": [
    "C90_calls",
    "C90_start",
    "C90_settles",
    "C90_reference",
    "C90_default_refuted",
    "C90_angles",
    "C90_tilt",
    "C90_heading"
   ],
   "note": "The settling theorem is carried over from C66 through the pair; the twin with a fixed gain must itself be reachable, which C90_start gives for new filters. C90_reference and C90_default_refuted prove the violation."
  },
  {
   "property": "C91",
   "status": "proved",
   "theorems": [
    "C91_attitude",
    "C91_raw",
    "C91_rest",
    "C91_rates",
    "C91_first",
    "C91_adaptive"
   ],
   "note": "Composes C79, C66, C83, C87 and C90 with C61; the new part is how tilt and heading errors move the vectors. No gimbal lock, unlike C89."
  }
 ]
}
