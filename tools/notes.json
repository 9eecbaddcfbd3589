{
"C01": {"status": "proved", "note": "Reachability by any number of calls of the 131 public functions listed in S_Reach (any arguments, successful or not). Generic in the arithmetic. print, is_initialized and the crate-private set_rows/set_cols are not in the list. That the panics exist is proved by witnesses (C01_panics_refuted)."},
"C02": {"status": "proved", "note": "Full decision table of get_element/set_element for matrices and vectors, with the frame law, over any arithmetic instance (so f32 with any libm)."},
"C03": {"status": "proved", "note": "init succeeds exactly on 1..4 dims and fails with the stated error otherwise; reinit clears the flag; the naive expectation that reinit leaves a usable object is refuted with a witness."},
"C04": {"status": "proved", "note": "Fresh objects read zero; re-initialised objects expose the old storage (the property's VIOLATION part), with a refutation witness."},
"C05": {"status": "proved", "note": "Row/column setters and getters, including every error case."},
"C06": {"status": "proved", "note": "Insertion, deletion, refusal on full/only-row matrices, and the round trip."},
"C07": {"status": "proved", "note": "The property is a VIOLATION statement: every wrong-length or past-the-end insertion leaves the matrix enlarged; concrete f32 witness."},
"C08": {"status": "proved", "note": "Pointwise meaning of all element-wise operations in all variants, including which prefix has been written when an element overflows."},
"C09": {"status": "proved", "note": "Uninitialised receivers are refused with the documented error; the operations that escape the check are listed and shown by witness (VIOLATION part)."},
"C10": {"status": "proved", "note": "Complete outcome of mul/mul_new over any arithmetic; ring laws over exact reals; identity and transpose laws bit-level in f32, with the negative-zero exception refuted by witness."},
"C11": {"status": "proved", "note": "transpose/transpose_new swap the indices for every shape, leave the shape consistent, and are involutive."},
"C12": {"status": "proved", "note": "All i8 offsets and all shapes, with and without overflow checks; fill_identity and trace too."},
"C13": {"status": "proved", "note": "Each predicate is shown to decide its specification for all inputs; the tall upper-triangular and wide lower-triangular violations are proved with witnesses."},
"C14": {"status": "proved", "note": "Exact-real soundness (C14_factors), permutation in binary32, and the violation of completeness in binary32 and over the reals."},
"C15": {"status": "proved", "note": "Exact reals; uniqueness of the solution included."},
"C16": {"status": "proved", "note": "Exact reals for the inverse and for unchanged-on-failure; C16_unchanged_f32_refuted shows binary32 failure can leave rows overwritten."},
"C17": {"status": "proved", "note": "Exact reals: det_naive is the expansion along the first row for every initialised square matrix; guards and no-panic for every arithmetic."},
"C18": {"status": "proved", "note": "Exact reals: det equals the determinant up to 3x3, and up to the sign flip by a double transposition for 4x4; sign violation witnessed in binary32."},
"C19": {"status": "proved", "note": "Exact reals: L R = A up to 2x2, and the exact condition for it at 3x3 and 4x4; 3x3 violation witnessed in binary32."},
"C20": {"status": "proved", "note": "Exact reals: L U = A up to 2x2 on success, and the exact condition for it at 3x3 and 4x4. Exact reals and binary32: singular answers and violation witnesses."},
"C21": {"status": "proved", "note": "Exact reals: Q orthogonal, R upper, QR=A unless A is near singular (some vector with a component 1 sent below EPSILON); non-square never succeeds, for every arithmetic; early-stop violation witnessed in binary32."},
"C22": {"status": "proved", "note": "Exact reals: factorisation, semi-definiteness, minors test (complete up to 3x3), positive definite matrices up to 3x3 never rejected; both violations witnessed in binary32."},
"C23": {"status": "proved", "note": "Soundness for every arithmetic; exact decision over the reals up to 3x3; violation witnessed in binary32. Determinants of 4x4 carry the sign error of C18."},
"C24": {"status": "proved", "note": "Exact reals for every matrix accepted, Rodrigues form for 3x3; identity violation in binary32 for every libm with acos 1 = 0 and sin 0 = 0; plane-rotation violation over the reals."},
"C25": {"status": "proved", "note": "Exact reals for the orthogonal case, f32 for recognised rotations; adjugate violation in binary32; dlyap violation for every arithmetic."},
"C26": {"status": "proved", "note": "Outcome for every arithmetic; orthogonality, similarity and trace over the reals for every iteration count; zero-eigenvalue, 1x1 and scalar-block violations in binary32 and over the reals."},
"C27": {"status": "proved", "note": "Exact reals, all vectors of length 1..4."},
"C28": {"status": "proved", "note": "Full rounding-error analysis over all f32 vectors in the range (any libm, since only sqrt and + * / are used); the overflow violation is proved for every vector with a component of magnitude at least 2^64 and by witness."},
"C29": {"status": "proved", "note": "Values over any arithmetic; symmetry and transposition bit-exact in f32."},
"C30": {"status": "proved", "note": "Range check bit-level in f32; lerp and slerp laws over exact reals; the failure on identical unit vectors is proved for all of them."},
"C31": {"status": "proved", "note": "Machine-level meaning of mul/mul_new over any arithmetic (aliasing included), Hamilton algebra over exact reals, bit-exact conjugation involution in f32, refusal of every other size."},
"C32": {"status": "proved", "note": "Both sides of the EPSILON threshold, and the size refusal."},
"C33": {"status": "proved", "note": "Rotation laws over exact reals; the double cover is also proved bit-exactly in f32 with any libm."},
"C34": {"status": "proved", "note": "Positive round trip plus each violation as a general theorem over all unit quaternions, and a concrete witness."},
"C35": {"status": "proved", "note": "Angle reconstruction and ranges over exact reals; f32 violation witnessed on the normalised (3,0,3,0) for every libm (NaN follows for a libm that answers NaN above 1, as the C standard requires)."},
"C36": {"status": "proved", "note": "Positive formulae for exp and exp_new, the real-quaternion violation for all real quaternions, and a witness for the disagreement."},
"C37": {"status": "proved", "note": "Accessors with frame laws and predicates with their exact decision regions, in any arithmetic; is_versor also read over exact reals."},
"C38": {"status": "proved", "note": "Every arithmetic, after every history of calls; default pass-through in binary32."},
"C39": {"status": "proved", "note": "Every arithmetic, after every history of calls; overflow violation also witnessed in binary32."},
"C40": {"status": "proved", "note": "Every arithmetic, after every history of calls; xz violation also witnessed in binary32."},
"C41": {"status": "proved", "note": "Every arithmetic, after every history of calls; stuck filter also witnessed in binary32."},
"C42": {"status": "proved", "note": "binary32 with any libm, after every history; zero attitude is absorbing, and witnesses show how it is reached and how a failed update leaves a half-written attitude."},
"C43": {"status": "proved", "note": "Exact-real instance, after every history of calls; closed form, n updates = one update over n*ts, and the kinematic equation dq/dt = q(0,w)/2; the f32 counterpart (norm control) is C42."},
"C44": {"status": "proved", "note": "Taylor (any order up to 20) and Euler steps characterised in exact arithmetic after every history; disagreement of the two first-order methods stated for every attitude and rate with non-parallel axes, with witnesses; order >= 21 panics for every rotating update; unsupported methods in f32."},
"C45": {"status": "proved", "note": "C45_lifecycle and C45_never hold for every arithmetic and every history: no update ever succeeds. C45_weights gives the exact f32 weight condition, C45_stuck_refuted a history after which no init can succeed. C45_attitude: the calculation that follows the refused sensor update never writes the attitude in any case."},
"C46": {"status": "proved", "note": "C46_lifecycle: for every arithmetic and every history of calls, by the phase of an automaton driven by the arguments only. C46_configure: re-configuration. Violations: C46_stuck_refuted (a failed init blocks the filter for ever), C46_unchecked_refuted (NaN period, gains and thresholds out of range accepted)."},
"C47": {"status": "proved", "note": "Exact real arithmetic, every reachable initialised filter in mode AM, every calibration and measurement with |a| > EPSILON; the previous attitude and the gyrometer arguments do not matter. Accelerations of norm at most EPSILON are not normalised by the code and are outside the claim."},
"C48": {"status": "proved", "note": "For every arithmetic (hence f32 with any libm): two filters in AM mode after arbitrary different histories, equal calibrations, same measurements: same attitude after a successful update."},
"C49": {"status": "proved", "note": "C49_gain (any arithmetic, any history); C49_between_f32, C49_between_real, C49_negative, C49_dead prove the violations in general, C49_between_refuted and C49_dead_refuted give concrete reachable filters."},
"C50": {"status": "proved", "note": "Any arithmetic, any history; C50_overwritten_refuted is the violation (magnetometer reading of zero)."},
"C51": {"status": "proved", "note": "f32, any libm, any history, both modes; C51_history along any sequence of calls in which no update fails. \"Or zero\" is part of the claim: normalisation flushes tiny quaternions to zero."},
"C52": {"status": "proved", "note": "Field operations, division guard, polar form, exponential in exact arithmetic (RX); C52_new and C52_new_refuted: the constructor discards its arguments; C52_unchecked_refuted: unchecked overflow and NaN in f32."},
"C53": {"status": "proved", "note": "bitrev for every n and b; dftmerge for every slice, every libm and both overflow-check settings."},
"C54": {"status": "proved", "note": "All for f32 with Flocq floats; allclose decision in exact arithmetic."},
"C55": {"status": "proved", "note": "C55_stream holds for any arithmetic; C55_value gives the constant result in exact arithmetic; C55_refuted exhibits two streams with different words."},
"C56": {"status": "proved", "note": "C56_update characterises the whole update for accelerations of norm one (other norms: C58); the wrong-way correction is C56_wrong_way_refuted."},
"C57": {"status": "proved", "note": "Rates of convergence proved for any number of updates; C57_heading starts from a level attitude."},
"C58": {"status": "proved", "note": "C58_scaled covers the straight-interpolation branch with downward predicted gravity; C58_fails the failing region; two refuted claims."},
"C59": {"status": "proved", "note": "C59_gyro, C59_turn; the wrong direction is C59_wrong_way_refuted."},
"C60": {"status": "proved", "note": "Forward error bounds for f32 and every libm, from the standard rounding model proved with Flocq; the exact laws that fail are refuted by witnesses."},
"C61": {"status": "proved", "note": "Error bounds for f32 and every libm; combines C60 with the normalisation bound of C28. Inputs outside the stated ranges (norm off by more than 1/100, vectors longer than 2^100) are not covered."},
"C62": {"status": "proved", "note": "f32, for every libm meeting the stated accuracy of sin and cos (a hypothesis of the theorem, not an axiom; an instance is exhibited). The Euler and Taylor methods are treated in C44 (exact) and C70 (f32)."},
"C63": {"status": "proved", "note": "Rounding analysis of the whole update (P_F32App: each machine operation adds 6e-8 to a relative error; P_F32Am, P_AmGeo, P_Am32). The 1/1000 horizontal condition is needed because the heading error grows without bound when the field becomes vertical. Violation: free fall is reported as an attitude."},
"C64": {"status": "proved", "note": "Output is modelled as a list of tokens; the decimal digits of a number are not modelled. Violation proved for new containers."},
"C65": {"status": "proved", "note": "convergence and accuracy over the reals for the unshifted iteration; the shifted iteration and general f32 rounding are not covered; the absolute stopping threshold is shown to spoil small matrices in f32"},
"C66": {"status": "proved", "note": "Every machine operation of the MARG update is bounded (P_RestF), the geometry of the two corrections in terms of the missing turn is in P_RestGeo, one update and n updates in P_Rest32. The hypotheses (record marg32, at_rest, quiet, near_truth in S_Rest) exclude adaptive gain, attitudes far from the truth and corrections that fall below the interpolation threshold."},
"C67": {"status": "proved", "note": "Follows from C63 (accuracy of one AM update against the measurements) and the geometry of the missing turn of C66 (P_RestGeo): the measurement errors and the rounding give a bound against the true attitude."},
"C68": {"status": "proved", "note": "C68_factors, C68_solve and C68_inverse bound the error by the magnitudes of the factors; C68_solve_refuted shows that this is not small against the matrix, because the pivot search compares signed values."},
"C69": {"status": "proved", "note": "The accuracy of asin and atan2 is a hypothesis (libm_angles), satisfied by angle_libm of the example. At gimbal lock see C35_pitch_refuted."},
"C70": {"status": "proved", "note": "pow(x, 1) accurate is a hypothesis (pow_one); Euler needs none. Orders above 1 are C44 (element-wise powers, wrong). Euler turns on the wrong side: C44_euler."},
"C71": {"status": "proved", "note": "Success is a hypothesis (C22 describes the positive-definiteness test over the reals). The bound concerns the lower triangle only: the part above it is the violation."},
"C72": {"status": "proved", "note": "The range of the vector components is the range in which the formula is right over the reals (C34 shows the clip at 1 breaks it beyond). The sign argument needs w away from zero."},
"C73": {"status": "proved", "note": "The absolute EPSILON makes the dichotomy absolute too: the exact decomposition is C21; here the loops are followed operation by operation. The bound needs sigma relative to M, since classical loss of orthogonality is proportional to the condition number."},
"C74": {"status": "proved", "note": "The pivot hypothesis is on the output of lup: because the search compares with the wrong column there is no closed condition on A that is much weaker. Exact-real counterpart: C23."},
"C75": {"status": "proved", "note": "Exact-real counterparts: C32 and C36. Between the two thresholds (vector part with a component above 9.8e-5 but length below 2e-4) nothing is claimed."},
"C76": {"status": "proved", "note": "Exact-real counterpart: C30. The exponent 3 is what the error analysis gives, no claim that it is optimal."},
"C77": {"status": "proved", "note": "Exact-real counterpart: C34. Near half turns (|w| < 1/10) nothing is claimed in f32."},
"C78": {"status": "proved", "note": "Counterpart of C38 with the rounding bounded. The coefficient that multiplies each pair of axes is the one of C40 (the magnetometer's are misnamed)."},
"C79": {"status": "proved", "note": "Combines C78 and C67; unlike C67 no hypothesis mentions a rounded value. The magnetometer coefficients are those actually applied (C40)."},
"C80": {"status": "proved", "note": "Exact counterpart is C34_sarabandi. The main bound has no exception near half turns; the lost signs are stated as C80_signs and C80_negative_refuted."},
"C81": {"status": "proved", "note": "The two violations are stated for all matrices beyond the thresholds, not for single witnesses."},
"C82": {"status": "proved", "note": "Sizes are characterised by what get_element can read, not by the size fields."},
"C83": {"status": "proved", "note": "Joins C78 (calibration in f32) and C62 (tracking in f32); success of each update is a conclusion. The true rate is constant during a sampling period."},
"C84": {"status": "proved", "note": "Violation of the expected accuracy, quantified over all rates and orders; strengthens the single witness of C44_taylor_2_refuted."},
"C85": {"status": "proved", "note": "The bounds are relative to the modulus, as a single part can cancel. The limits on the size keep the squares from overflowing; C85_overflow shows what happens from 2^64 on."},
"C86": {"status": "proved", "note": "Forward bound for det_naive, backward bound for det; the products of the magnitudes of L and U can be large because the pivot search compares signed values (C68_solve_refuted). The wrong sign is the one of C18."},
"C87": {"status": "proved", "note": "C70 composed with the f32 calibration bound C78 and the Lipschitz bound C83_rates. The left-handed product of Euler is the violation of C44."},
"C88": {"status": "proved", "note": "The determinant hypothesis is needed: C74 shows rotations refused by lup. The failure generalises C24_identity from one matrix to a class; C88_small_refuted gives a proper rotation by 1/8192."},
"C89": {"status": "proved", "note": "Composes C79, C66 and C83 with C69; the new part is how tilt and heading errors move the three angles."},
"C90": {"status": "proved", "note": "The settling theorem is carried over from C66 through the pair; the twin with a fixed gain must itself be reachable, which C90_start gives for new filters. C90_reference and C90_default_refuted prove the violation."},
"C91": {"status": "proved", "note": "Composes C79, C66, C83, C87 and C90 with C61; the new part is how tilt and heading errors move the vectors. No gimbal lock, unlike C89."}
}
