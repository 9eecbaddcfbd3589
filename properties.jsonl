{"id": "C01", "title": "Containers never leave their valid shape and never hold NaN/Inf", "statement": "Whatever sequence of public Matrix, Vector and Quaternion operations a program performs (including operations that fail half-way), every matrix and vector it can get hold of has at most 4 rows and 4 columns, at least 1 of each if it is initialised, and every element that get_element can return is a finite float. No public operation ever panics on an array index. Compiled without overflow checks no public operation panics at all; compiled with overflow checks the only panics are u8 overflows in add_row/add_col at index 255, del_row and is_lower_triangular on an uninitialised matrix, and eigen with shifts on a 1 x 1 matrix, and these do occur.", "quantifier": "for every program over the public Matrix/Vector API, every argument value (any u8 index, any f32 including NaN and infinities), every failure point", "why_tests_cant": "the set of operation histories and f32 arguments is infinite; tests sample a handful of well-formed calls", "anchors": ["linalg/src/matrix.rs: Matrix::init, reinit, set_element, set_rows, set_cols, add_row, add_col, del_row, transpose, mul", "linalg/src/vector.rs: Vector::init, set_element", "utils/src/lib.rs: is_valid_value"]}
{"id": "C02", "title": "Element access: complete decision table and frame law", "statement": "set_element(r,c,v) reports, in this priority, not-initialised, NaN, infinite, bad row, bad column; on any error the object is unchanged; on success get_element(r,c) returns v and every other element, the dimensions and the init flag are unchanged. get_element reports not-initialised, bad row, bad column in this priority and otherwise succeeds. Same for Vector.", "quantifier": "for every object state, every u8 index pair and every f32 value", "why_tests_cant": "256x256 index pairs times all floats times all states; aliasing between two cells (wrong stride) only shows for particular shapes", "anchors": ["linalg/src/matrix.rs: set_element, get_element", "linalg/src/vector.rs: set_element, get_element", "linalg/src/common.rs: is_valid_row, is_valid_col"]}
{"id": "C03", "title": "Initialisation lifecycle", "statement": "init succeeds exactly when the object is not initialised and the requested sizes are in 1..=4; otherwise it changes nothing and reports AlreadyInit, then row overflow, row null, column overflow, column null, in that priority. After success the requested dimensions are reported. reinit on an initialised object succeeds exactly on valid sizes; VIOLATION: a reinit with an invalid size does not keep the object usable, it leaves it un-initialised (further element reads report NotInit).", "quantifier": "for every object state and every u8 size pair", "why_tests_cant": "error priority and the state left behind by a failed reinit depend on all size pairs and prior states", "anchors": ["linalg/src/matrix.rs: init, reinit", "linalg/src/vector.rs: init, reinit", "linalg/src/common.rs: is_valid_rows_number, is_valid_cols_number"]}
{"id": "C04", "title": "A freshly initialised object reads as zero; a re-initialised one does not", "statement": "Every element of a newly created and initialised matrix or vector is 0.0. VIOLATION: after reinit the elements are whatever the old storage held, re-read with the new row stride; there is a reinitialised matrix whose elements are not zero.", "quantifier": "for every valid size pair and every previous content", "why_tests_cant": "stale data only appears for particular old/new shape pairs", "anchors": ["linalg/src/matrix.rs: new, init, reinit", "linalg/src/vector.rs: new, init, reinit"]}
{"id": "C05", "title": "Row and column accessors move data exactly", "statement": "set_row followed by get_row (set_col / get_col, row_to_vector, col_to_vector) returns exactly the vector given, bit for bit; all other rows (columns) are unchanged; wrong vector length and out-of-range indices are rejected with InvalidSize / InvalidRow / InvalidCol and nothing is written.", "quantifier": "for every matrix shape, every content, every index and every vector", "why_tests_cant": "all shapes x all indices x all floats; a stride error shows only for non-square shapes", "anchors": ["linalg/src/matrix.rs: set_row, set_col, get_row, get_col, row_to_vector, col_to_vector"]}
{"id": "C06", "title": "Row/column insertion and row deletion have list semantics", "statement": "On success add_row(v, r) inserts v before row r, shifts later rows down and leaves other columns alone; add_col is the same for columns; del_row(r) returns row r and closes the gap; del_row(r) after add_row(v,r) returns v and restores the matrix element for element. Adding to a full matrix fails without change; deleting the only row fails.", "quantifier": "for every matrix shape 1..4 x 1..4, every content, every insertion index", "why_tests_cant": "the storage is re-strided in place; off-by-one errors depend on shape and index combination", "anchors": ["linalg/src/matrix.rs: add_row, add_col, del_row, set_rows, set_cols"]}
{"id": "C07", "title": "A failed insertion is not atomic", "statement": "Expected: a failing add_row / add_col leaves the matrix as it was. VIOLATION: whenever the vector length is wrong or the index is past the end and the matrix is not full, add_row returns an error but the matrix has gained a row; there are such calls for both functions.", "quantifier": "for every non-full matrix and every vector of the wrong length (and a witness)", "why_tests_cant": "tests check only returned values of successful calls, not the state after a failed one", "anchors": ["linalg/src/matrix.rs: add_row, add_col"]}
{"id": "C08", "title": "Element-wise operations: exact pointwise meaning, including the failure case", "statement": "fill, add, sub, add_scalar, sub_scalar, mul_by_scalar, power_elements, copy (matrix and vector; plain, in-place, *_new): if every pointwise result is finite the operation succeeds and every element equals the pointwise f32 result while dimensions are unchanged; otherwise it reports Nan/Inf for the first non-finite result in row-major order, elements before it are updated and elements from it on are unchanged. In-place and *_new variants agree with the plain ones. Size mismatches are rejected without change.", "quantifier": "for every pair of objects of every size and every f32 content", "why_tests_cant": "overflow in one particular cell decides which cells were already overwritten", "anchors": ["linalg/src/matrix.rs: fill, add*, sub*, mul_by_scalar_in_place, power_elements, copy_from, duplicate", "linalg/src/vector.rs: same"]}
{"id": "C09", "title": "Which operations refuse an uninitialised object", "statement": "Expected (README): an uninitialised matrix cannot be manipulated. get/set_element, is_square, is_same_size_as, transpose, trace, copy_from, add, sub, fill_identity and the vector analogues report an error on a never-initialised object. VIOLATION: fill, *_scalar_in_place, power_elements, calculate_frobenius_norm, is_upper_triangular, mul of three uninitialised matrices, Vector::calculate_norm and normalize return Ok. is_lower_triangular and del_row underflow a u8 on such an object (panic with overflow checks).", "quantifier": "for every operation and argument on a never-initialised object", "why_tests_cant": "needs the full list of operations times arguments; tests only use initialised objects", "anchors": ["linalg/src/matrix.rs: fill, mul, calculate_frobenius_norm, is_upper_triangular, is_lower_triangular, del_row", "linalg/src/vector.rs: fill, calculate_norm, normalize"]}
{"id": "C10", "title": "Matrix product", "statement": "mul accepts exactly compatible shapes and then element (i,j) is the left-to-right f32 sum from 0.0 of a(i,k)*b(k,j), failing exactly when a partial sum is not finite; as real numbers without rounding this is the matrix product, it is associative, distributes over add and has the identity as neutral element; in f32 the product with the identity reproduces every element exactly, except that -0.0 becomes +0.0, and transposing a product gives bit for bit the product of the transposes in reverse order.", "quantifier": "for every pair/triple of matrices of compatible sizes up to 4x4 and every finite f32 content", "why_tests_cant": "shape errors and index transpositions only show for particular shapes; exactness is a claim over all floats", "anchors": ["linalg/src/matrix.rs: mul, mul_new, fill_identity, transpose"]}
{"id": "C11", "title": "Transpose", "statement": "transpose on any initialised matrix (square in place, rectangular) swaps the dimensions and moves element (i,j) to (j,i) bit for bit; twice is the identity; transpose_new does not modify its argument and agrees.", "quantifier": "for every shape and content", "why_tests_cant": "16 shapes with two code paths; in-place overwrite hazards depend on contents being distinct", "anchors": ["linalg/src/matrix.rs: transpose, transpose_new"]}
{"id": "C12", "title": "diag and identity constructors", "statement": "diag(k) returns exactly the elements a(i,i+k) (k>=0) or a(i-k,i) (k<0) in order, for every shape, and InvalidDiagonalLength exactly when that diagonal is empty; it never overflows i8. fill_identity writes 1 on the diagonal of a square matrix, 0 elsewhere and rejects non-square.", "quantifier": "for every shape, content and every i8 offset", "why_tests_cant": "256 offsets x 16 shapes x contents", "anchors": ["linalg/src/matrix.rs: diag, fill_identity, trace"]}
{"id": "C13", "title": "Comparison predicates decide what they say", "statement": "is_equal_to(m, d) is true iff dimensions agree and every pair of elements differs by at most d as computed by f32 subtraction; is_symmetric, is_upper_triangular (when rows <= cols+1) and is_lower_triangular (last row not inspected) hold iff the corresponding elements are within EPSILON. allclose is symmetric and reflexive bit-exactly for finite floats. VIOLATION: on an initialised tall matrix with zero lower part (e.g. 3x1 of zeros) is_upper_triangular returns Err(InvalidCol) and never answers true for rows > cols+1. VIOLATION: a wide matrix with a nonzero element right of the diagonal in its last row is called lower triangular.", "quantifier": "for every pair of matrices, every tolerance", "why_tests_cant": "the decision quantifies over all elements and floats; the tall case is never tested", "anchors": ["linalg/src/matrix.rs: is_equal_to, is_symmetric, is_upper_triangular, is_lower_triangular", "utils/src/lib.rs: allclose"]}
{"id": "C14", "title": "Pivoted LU factorisation is sound but incomplete", "statement": "Whenever lup on a square matrix succeeds, the returned index vector is a permutation and, in exact arithmetic, row-permuted A equals L*U with L unit lower and U upper triangular stored in the returned matrix. Expected completeness is VIOLATED: the invertible 2x2 rotation by 90 degrees is reported Singular, because pivots are selected by signed value against column 0. Exactly which matrices are refused: in every arithmetic, a 2x2 matrix is reported Singular if and only if the larger (signed) element of its first column is below EPSILON in magnitude; a 3x3 matrix (first elimination step finite) if and only if the largest element of its first column, or the second pivot, chosen by comparing the candidate of the last row with the multiplier of the other row, is.", "quantifier": "for every square matrix up to 4x4 over the reals; one f32 witness for the violation", "why_tests_cant": "infinite matrix space; pivot order varies with data", "anchors": ["linalg/src/linalg.rs: lup"]}
{"id": "C15", "title": "Linear solve", "statement": "If lup(A) and solve(LU,b,p) both succeed then, in exact arithmetic, A*x = b; solve reports Unsolvable exactly when some diagonal pivot is within EPSILON of zero.", "quantifier": "for every square A up to 4x4 and every right-hand side", "why_tests_cant": "infinite input space", "anchors": ["linalg/src/linalg.rs: lup, solve"]}
{"id": "C16", "title": "Matrix inverse", "statement": "If invert succeeds then in exact arithmetic A*A^-1 = A^-1*A = I; if it fails in exact arithmetic the matrix is unchanged; failure is reported as NotInit for an uninitialised matrix, NotSquare for a non-square one and NotInversible for a LU/solve failure.", "quantifier": "for every matrix up to 4x4", "why_tests_cant": "infinite input space; in-place overwriting", "anchors": ["linalg/src/matrix.rs: invert", "linalg/src/linalg.rs: lup, solve"]}
{"id": "C17", "title": "Naive determinant is the determinant", "statement": "det_naive of an initialised square matrix equals, in exact arithmetic, the determinant by cofactor expansion; non-square is rejected.", "quantifier": "for every square matrix 1x1..4x4 over the reals", "why_tests_cant": "polynomial identity in up to 16 variables", "anchors": ["linalg/src/matrix.rs: det_naive, generate_permutations, count_inversions"]}
{"id": "C18", "title": "LU determinant: magnitude right, sign wrong for double swaps", "statement": "When det succeeds on an n x n matrix with n<=3 it equals the determinant (exact arithmetic). For n=4 it equals the determinant unless the pivot permutation swaps two disjoint pairs, in which case it is the negated determinant. VIOLATION witness: the 4x4 permutation matrix of (0 1)(2 3) has determinant +1 and det returns -1.", "quantifier": "for every square matrix for which det succeeds; one witness", "why_tests_cant": "only 3 of 24 pivot orders are wrong; depends on data", "anchors": ["linalg/src/matrix.rs: det", "linalg/src/linalg.rs: lup"]}
{"id": "C19", "title": "lr decomposition", "statement": "For 1x1 and 2x2 matrices, if lr succeeds then in exact arithmetic L*R=A with L unit lower, R upper triangular. VIOLATION for 3x3: when lr succeeds on 3x3 or 4x4 the factors are triangular, and L*R = A exactly when the sums that the accumulator carries over (it is not reset) all vanish; witnesses. lr succeeds on a 2x2 matrix exactly when a00 is not zero and on a 3x3 matrix exactly when the first two leading minors are not zero, since the outcomes of its comparisons with EPSILON are discarded.", "quantifier": "for every matrix up to 4x4", "why_tests_cant": "data dependent", "anchors": ["linalg/src/matrix.rs: lr"]}
{"id": "C20", "title": "Crout decomposition", "statement": "VIOLATION: for every matrix of size >= 2 whose first element exceeds EPSILON in magnitude (i.e. whenever a decomposition without pivoting can start), lu_crout fails with Singular; whenever it succeeds on size >= 2 the first pivot was within EPSILON of zero. When it succeeds, L is unit lower and U upper triangular; L*U = A for sizes 1 and 2, and for 3 and 4 exactly when the sums that the accumulator carries over vanish. On 2x2 matrices it succeeds exactly when 0 < |a00| <= EPSILON, on 3x3 exactly when this also holds for the second pivot.", "quantifier": "for every square matrix", "why_tests_cant": "quantifies over all matrices", "anchors": ["linalg/src/matrix.rs: lu_crout"]}
{"id": "C21", "title": "QR decomposition", "statement": "If qr_decomp succeeds on a square matrix and no intermediate column norm is below EPSILON then in exact arithmetic Q'Q=I, Q*R=A and R is upper triangular. VIOLATION: for every initialised non-square matrix qr_decomp never succeeds, although documented for m x n.", "quantifier": "for every matrix", "why_tests_cant": "infinite input space", "anchors": ["linalg/src/matrix.rs: qr_decomp"]}
{"id": "C22", "title": "Cholesky decomposition and positive-definiteness test", "statement": "If chol succeeds on an exactly symmetric matrix then in exact arithmetic L is lower triangular with non-negative diagonal and L*L'=A. VIOLATIONS: is_positive_definite answers true for the zero 1x1 matrix; for a matrix that is symmetric only up to the accepted tolerance chol can return a non-triangular factor with L*L' different from A.", "quantifier": "for every symmetric matrix up to 4x4; witnesses", "why_tests_cant": "infinite input space", "anchors": ["linalg/src/matrix.rs: chol, is_positive_definite, is_symmetric"]}
{"id": "C23", "title": "Rotation-matrix recognition", "statement": "If is_so_n answers true then every element of R*R' is within EPSILON of the identity and det(R) as computed is within EPSILON of 1. VIOLATION: the -90 degree rotation about z (an exact element of SO(3), and of SO(2)) makes is_so_n and is_orthogonal report Err(Singular).", "quantifier": "for every matrix; witness", "why_tests_cant": "completeness quantifies over all rotations", "anchors": ["linalg/src/matrix.rs: is_orthogonal, is_so_n, det"]}
{"id": "C24", "title": "Matrix logarithm", "statement": "When log of an n x n rotation succeeds in exact arithmetic the result is skew-symmetric and equals theta/(2 sin theta)*(R-R'), with cos theta=(trace-1)/2; log_in_place computes the same, and on a 3x3 rotation by an angle in (0,PI) it is the angle times the cross-product matrix of the axis. VIOLATIONS: log of the 3x3 identity (whose logarithm is zero) fails with a NaN error; on 2x2 rotations log succeeds with a wrong value (it uses the trace formula of dimension 3); the answer of is_so_n is not used, so non-rotations are accepted.", "quantifier": "for every matrix accepted", "why_tests_cant": "infinite input space", "anchors": ["linalg/src/matrix.rs: log, log_in_place"]}
{"id": "C25", "title": "Adjugate and Lyapunov solver", "statement": "adjugate_in_place of a matrix R with R*R'=I, when it succeeds with det(R) computed exactly, returns R with R*adj = det*I. In f32, on every matrix is_so_n recognises, it succeeds, every element is within 1.05e-4 of the transpose, and the exact product of the matrix with it is within 2.1e-4 of the identity. VIOLATIONS: for a general matrix the result is not the adjugate (witness diag(2,1)); dlyap always returns the zero matrix, which does not solve A P A' - P + Q = 0 whenever Q is non-zero.", "quantifier": "for every square matrix; witness", "why_tests_cant": "quantifies over all inputs", "anchors": ["linalg/src/matrix.rs: adjugate_in_place, dlyap"]}
{"id": "C26", "title": "Eigen decomposition", "statement": "The returned eigenvector matrix is, in exact arithmetic and when no QR step degenerates, orthogonal and the eigenvalues are the diagonal of V'AV, so on converged exit the sum of eigenvalues equals the trace; without shift and for a matrix bounded away from singular no step degenerates. VIOLATIONS: with an iteration budget of 0 or 1 (and whenever it does not converge) eigen returns Ok with all eigenvalues equal to zero instead of an error; on a 1x1 matrix with shift it panics when overflow checks are on; with shift it fails on the identity and every matrix whose last 2x2 block is scalar.", "quantifier": "for every square matrix and every iteration count", "why_tests_cant": "convergence depends on the data; budget of iterations unbounded", "anchors": ["linalg/src/linalg.rs: eigen", "linalg/src/matrix.rs: qr_decomp"]}
{"id": "C27", "title": "Norm and normalisation (exact arithmetic)", "statement": "calculate_norm is the Euclidean norm, flushed to 0 when it is <= EPSILON; normalize yields norm 1 and the same direction when the norm exceeds EPSILON, otherwise the zero vector.", "quantifier": "for every vector of length 1..4 over the reals", "why_tests_cant": "infinite input space", "anchors": ["linalg/src/vector.rs: calculate_norm, normalize"]}
{"id": "C28", "title": "Normalisation in f32", "statement": "For every finite f32 vector whose true norm is between 2*EPSILON and 2^60, normalize succeeds and the true norm of the result differs from 1 by less than 1e-6, so a quaternion passes is_versor afterwards. VIOLATION: there are finite vectors (components above about 1.9e19) for which normalize returns Ok with the zero vector, because the squared norm overflows.", "quantifier": "for every f32 vector in range; witness outside", "why_tests_cant": "rounding errors over 2^128 inputs", "anchors": ["linalg/src/vector.rs: calculate_norm, normalize", "quaternion/src/quaternion.rs: is_versor"]}
{"id": "C29", "title": "Dot and outer product", "statement": "dot_product requires equal sizes, is symmetric bit for bit in f32 and is the sum of products; outer_product(u,v) has u.rows x v.rows elements u_i*v_j and its transpose is outer_product(v,u) bit for bit.", "quantifier": "for every pair of f32 vectors", "why_tests_cant": "all floats, all sizes", "anchors": ["linalg/src/vector.rs: dot_product, outer_product"]}
{"id": "C30", "title": "Interpolation", "statement": "slerp and lerp reject alpha outside [0,1] (including NaN) with InvalidAlpha and leave self unchanged; in exact arithmetic lerp is (1-alpha)a+alpha b and hits its end points; slerp of two unit vectors at an angle strictly between 0 and pi stays on the unit sphere, hits its end points and is in the plane of the two. VIOLATION: slerp between a unit vector and itself always fails with a NaN error in exact arithmetic.", "quantifier": "for all vectors and all alpha", "why_tests_cant": "infinite input space", "anchors": ["linalg/src/vector.rs: slerp, lerp"]}
{"id": "C31", "title": "Hamilton product laws", "statement": "mul of quaternions is, in exact arithmetic, the Hamilton product: associative, bilinear, with identity, i^2=j^2=k^2=ijk=-1, norm multiplicative, conjugation an anti-automorphism and q*conj(q)=|q|^2. conjugate is a bit-exact involution. Non-quaternion (size != 4) arguments are rejected.", "quantifier": "for all quaternions", "why_tests_cant": "polynomial identities", "anchors": ["quaternion/src/quaternion.rs: mul, mul_new, conjugate, conjugate_new"]}
{"id": "C32", "title": "Quaternion inverse", "statement": "In exact arithmetic invert yields q^-1 with q*q^-1 = q^-1*q = 1 for every quaternion of norm > EPSILON, and the zero quaternion (silently, with Ok) for every quaternion of norm <= EPSILON; a vector of size other than 4 is refused with InvalidSize.", "quantifier": "for all quaternions", "why_tests_cant": "infinite input space", "anchors": ["quaternion/src/quaternion.rs: invert, conjugate"]}
{"id": "C33", "title": "Quaternion to rotation matrix", "statement": "For every unit quaternion convert_to_dcm returns a proper rotation (R R'=I, det=1), q and -q give the same matrix, the matrix of p*q is the product of the matrices, rotate(q,v) equals the matrix times v and preserves length.", "quantifier": "for all unit quaternions and vectors", "why_tests_cant": "polynomial identities on the sphere", "anchors": ["quaternion/src/quaternion.rs: convert_to_dcm, rotate, rotate_in_place"]}
{"id": "C34", "title": "Rotation matrix to quaternion", "statement": "In exact arithmetic chiaverini(dcm(q)) = q for unit q with w>0 and |x|,|y|,|z| <= sqrt(1/2) (-q for w<0). VIOLATIONS: chiaverini returns the zero quaternion for every 180 degree rotation and a different rotation whenever a vector component exceeds sqrt(1/2); hughes(dcm(q)) is the identity when 4(1 - w^2) <= EPSILON (rotations up to about half a degree), the conjugate of q up to sign beyond that, and (|w|, sqrt(w^2+x^2), sqrt(w^2+y^2), sqrt(w^2+z^2)) when |w| <= EPSILON, so that half turns lose the signs of their axis; sarabandi loses all signs.", "quantifier": "for all unit quaternions; witnesses", "why_tests_cant": "infinite input space", "anchors": ["quaternion/src/quaternion.rs: hughes, chiaverini, sarabandi"]}
{"id": "C35", "title": "Euler angles", "statement": "For a unit quaternion away from gimbal lock the angles (phi,theta,psi) from convert_to_euler satisfy Rz(psi)Ry(theta)Rx(phi) = dcm(q) in exact arithmetic. VIOLATION: in f32 the returned pitch can be NaN with Ok (no validation) when rounding pushes the arcsine argument above 1.", "quantifier": "for all unit quaternions", "why_tests_cant": "trigonometric identity over a manifold", "anchors": ["quaternion/src/quaternion.rs: convert_to_euler"]}
{"id": "C36", "title": "Quaternion exponential", "statement": "In exact arithmetic: exp and exp_new of a pure quaternion (w = 0) whose vector part is not within EPSILON of zero are (cos|v|, sin|v| v/|v|), of unit norm; for a general quaternion with such a vector part exp_new is E^w (cos|v|, sin|v| v/|v|), E being the library constant and the factor being dropped when |w| <= EPSILON. VIOLATIONS: exp of every real quaternion is reported as the identity instead of e^w; the in-place exp decides on the factor from the new cosine instead of w, so exp and exp_new disagree on some quaternion.", "quantifier": "for all quaternions; witnesses", "why_tests_cant": "infinite input space", "anchors": ["quaternion/src/quaternion.rs: exp, exp_new"]}
{"id": "C37", "title": "Quaternion predicates and accessors", "statement": "is_real / is_pure / is_versor / is_identity answer exactly according to EPSILON-closeness of the components or the norm, only for size-4 vectors (InvalidSize otherwise); get_q*/set_q*/fillq/get_vector_part access exactly the named components.", "quantifier": "for all vectors", "why_tests_cant": "all floats", "anchors": ["quaternion/src/quaternion.rs: is_*, get_q*, set_q*, fillq, get_vector_part"]}
{"id": "C38", "title": "Sensor calibration", "statement": "After a successful init or set_config, get_config returns exactly the configuration given (all three sensors). A successful update makes the reported measurements equal, bit for bit in f32, the left-to-right evaluated correction matrix times (raw - bias). With the default configuration the reported measurements equal the raw ones as real numbers for every finite f32 input.", "quantifier": "for every configuration and every measurement", "why_tests_cant": "all floats; 12 configuration fields", "anchors": ["open_ahrs/src/accelerometer.rs", "open_ahrs/src/gyrometer.rs", "open_ahrs/src/magnetometer.rs"]}
{"id": "C39", "title": "Sensor failure behaviour", "statement": "Uninitialised sensors reject update, set_config, get_config and reads with their own NotInit error, initialised ones reject init and stay initialised. After a failed update with a non-finite raw value the reported measurements are unchanged. VIOLATIONS: a failed set_config with a non-finite field is not atomic: it leaves a mixture of old and new calibration on a sensor that remains initialised; an update that fails by overflow of the correction overwrites the reported measurements with uncorrected ones.", "quantifier": "for every state, configuration and measurement", "why_tests_cant": "failure points x states", "anchors": ["open_ahrs/src/accelerometer.rs", "open_ahrs/src/gyrometer.rs", "open_ahrs/src/magnetometer.rs"]}
{"id": "C40", "title": "Calibration field naming", "statement": "For accelerometer and gyrometer the misalignment field ab is the coefficient applied to axis a in the reported axis b. VIOLATION for the magnetometer: no naming is followed (xy is y->x, xz is x->y, yx is z->x, yz is x->z, zx is z->y, zy is y->z); in particular changing xz_soft_iron_correction changes the reported y axis and never the z axis.", "quantifier": "for every configuration and measurement", "why_tests_cant": "needs sensitivity over all inputs", "anchors": ["open_ahrs/src/magnetometer.rs: private_set_config", "open_ahrs/src/accelerometer.rs", "open_ahrs/src/gyrometer.rs"]}
{"id": "C41", "title": "Angular-rate filter: lifecycle", "statement": "update/get_attitude before a successful init report ARFilterNotInit and change nothing; after a successful init, init always reports ARFilterAlreadyInit and get_attitude returns the initial quaternion. VIOLATION: after an init that failed because of a non-finite quaternion every later init fails for ever.", "quantifier": "for every history of calls", "why_tests_cant": "histories unbounded", "anchors": ["open_ahrs/src/ar.rs: new, init, update, get_attitude"]}
{"id": "C42", "title": "Angular-rate filter: attitude stays a unit quaternion", "statement": "In f32, along every history of init and update calls, after each successful update that saw rotation the attitude has true norm within 1e-6 of 1 or is exactly zero; once it is so it stays so along every further history, failures included, so drift never accumulates. VIOLATIONS: a unit attitude can become exactly zero by one successful update with a huge finite rate; a zero attitude never recovers; a failed Euler update can leave a half-written attitude when the initial quaternion was not unit.", "quantifier": "for every history, every measurement, every method, every libm", "why_tests_cant": "unbounded histories and rounding", "anchors": ["open_ahrs/src/ar.rs: update", "linalg/src/vector.rs: normalize"]}
{"id": "C43", "title": "Angular-rate filter: closed form integrates body rates", "statement": "In exact arithmetic a ClosedForm update from a unit attitude q with corrected rate w (|w|>EPSILON) gives q * (cos t, sin t w/|w|), t=|w| ts/2; with |w|<=EPSILON the attitude is unchanged; n updates at constant rate equal one update over n*ts.", "quantifier": "for every attitude, rate, period and number of updates", "why_tests_cant": "trigonometric identity, induction over history", "anchors": ["open_ahrs/src/ar.rs: update", "open_ahrs/src/common.rs: calculate_omega_matrix"]}
{"id": "C44", "title": "Angular-rate filter: Euler and Taylor methods", "statement": "Taylor of order 1 equals normalised q + ts/2 q*w. VIOLATIONS: the Euler method uses w*q, so Euler and Taylor-1 disagree for some attitude and rate; Taylor of order 2 adds element-wise squares; TaylorSeries of order >= 21 panics on factorial overflow with overflow checks; unsupported methods fail only when rotating.", "quantifier": "for every attitude and rate; witnesses", "why_tests_cant": "agreement over all inputs", "anchors": ["open_ahrs/src/ar.rs: update", "utils/src/lib.rs: factorial"]}
{"id": "C45", "title": "Davenport filter can never be updated", "statement": "VIOLATION of the filter's purpose: along every history of init and update calls, every update returns an error (DavenportFilterNotInit or AccNotInit); init with invalid weights makes every later init fail.", "quantifier": "for every history and argument", "why_tests_cant": "universal over histories", "anchors": ["open_ahrs/src/davenport.rs"]}
{"id": "C46", "title": "Aqua filter: lifecycle and configuration", "statement": "Before a successful init, update and get_attitude fail with AquaFilterNotInit and change nothing, and sensor configuration access fails with the sensor NotInit error; a second init fails with AquaFilterAlreadyInit and changes nothing; a first init succeeds exactly when the sensors in use have finite configurations (a gyrometer one is required in MARG mode) and the initial quaternion has none or four finite components, and then every setting is the given one. VIOLATIONS: after any failed init of a fresh filter every later init fails; gains, thresholds and the sampling period are not checked at all (NaN and out-of-range values are accepted).", "quantifier": "for every history and argument", "why_tests_cant": "histories unbounded", "anchors": ["open_ahrs/src/aqua.rs: init, get_attitude, update"]}
{"id": "C47", "title": "Aqua AM mode computes the attitude", "statement": "In exact arithmetic, for every AM update whose calibrated acceleration a is longer than EPSILON: if the calibrated magnetic field m is longer than EPSILON and not parallel to a, the update succeeds and yields a unit quaternion q with R(q)' a/|a| = (0,0,-1), R(q)' m has zero y component and positive x component; otherwise the update fails with a numeric error and keeps the previous attitude.", "quantifier": "for every measurement pair", "why_tests_cant": "infinite input space, four branch combinations", "anchors": ["open_ahrs/src/aqua.rs: update"]}
{"id": "C48", "title": "Aqua AM mode is history free", "statement": "In AM mode without adaptive gain the attitude after a successful update depends only on the sensor calibration and the current measurements, never on earlier measurements or attitudes, in f32.", "quantifier": "for every pair of histories", "why_tests_cant": "relational over histories", "anchors": ["open_ahrs/src/aqua.rs: update"]}
{"id": "C49", "title": "Aqua adaptive gain", "statement": "Expected: the adaptive gain stays in [0, configured gain] and recovers when disturbances vanish. Holds: after a successful MARG update the gain is in [0, 1] and is the one of the published formula. VIOLATIONS: with a relative error strictly between the thresholds the new gain is negative (exact arithmetic: the update never succeeds; f32: it never leaves a positive gain); a negative gain makes every later undisturbed update fail; once zero the gain is zero for ever.", "quantifier": "for every gain, threshold pair and measurement", "why_tests_cant": "history dependence", "anchors": ["open_ahrs/src/aqua.rs: calculate_adaptative_gain, update, interpolate"]}
{"id": "C50", "title": "Aqua MARG mode: failure behaviour", "statement": "A MARG update without gyroscope measurements fails with NoGyroRawMeasurements, with a partial set InvalidGyroRawMeasurements, and changes nothing; non-finite measurements are refused and leave the attitude unchanged; the only other errors are numeric errors, InvalidAlpha and the threshold errors. VIOLATION: some failing MARG updates have already overwritten the attitude.", "quantifier": "for every state and measurement", "why_tests_cant": "failure points", "anchors": ["open_ahrs/src/aqua.rs: update"]}
{"id": "C51", "title": "Aqua attitude stays a unit quaternion", "statement": "In f32, after every successful Aqua update in either mode the attitude has true norm within 1e-6 of 1 or is exactly zero, whatever the libm implementation returns.", "quantifier": "for every history, measurement and configuration", "why_tests_cant": "rounding over histories", "anchors": ["open_ahrs/src/aqua.rs: update", "linalg/src/vector.rs: normalize"]}
{"id": "C52", "title": "Complex numbers", "statement": "add, sub, mul, conjugate, neg, swap realise the field operations of complex numbers in exact arithmetic; div by a divisor that is not numerically zero is exact division, a numerically zero divisor is refused; polar form, modulus and exponential are those of complex analysis. VIOLATIONS: Complex::new(re,im) returns 0+0i for all finite arguments; the f32 operations do not check their results, so finite operands give infinities or NaN without an error.", "quantifier": "for all complex numbers", "why_tests_cant": "infinite input space", "anchors": ["dsp/src/complex.rs"]}
{"id": "C53", "title": "Bit reversal and DFT merge", "statement": "bitrev(n,b) for b<=8 puts bit b-1-i of n in position i and clears the others, is an involution and hence a permutation on 0..2^b; b>8 is rejected. VIOLATION: dftmerge computes nothing: it leaves every slice unchanged, succeeds on slices of at least 16 elements and panics on shorter ones.", "quantifier": "for every n and b", "why_tests_cant": "all b up to 8 and all n", "anchors": ["dsp/src/fft.rs: bitrev, dftmerge"]}
{"id": "C54", "title": "Scalar helpers", "statement": "On the extended-real order of f32 (NaN compares with nothing): clip with ordered bounds returns the value if it is inside, else the bound exceeded, and a NaN unchanged; in_range decides the closed interval, NaN is never in range; minf/maxf return the smaller/larger of two numbers; sign is 1, -1 or 0; min/max on integers; allclose refuses non-finite values and decides |x-y|<=d; factorial(n) = n! for n<=20 and for every n>=21 panics with overflow checks and is n! mod 2^64 without. VIOLATION: minf/maxf with one NaN depend on the order of their arguments.", "quantifier": "for every value", "why_tests_cant": "all floats / all u8", "anchors": ["utils/src/lib.rs"]}
{"id": "C55", "title": "Random attitudes are not random", "statement": "VIOLATION: generate_random_attitudes does not depend on the random generator: for all generator outputs below u64::MAX the result is the same. In exact arithmetic it always is the sequence of rotations of half-angle (n+1)pi/64 about the y axis; 0 or more than 4 attitudes are refused.", "quantifier": "for every pair of random streams", "why_tests_cant": "universal over the generator", "anchors": ["open_ahrs/src/common.rs: generate_random_attitudes"]}
{"id": "C56", "title": "What a MARG update of the Aqua filter does", "statement": "In exact arithmetic, for every reachable Aqua filter in mode MARG, every attitude not tiny, every rate, every field and every acceleration of norm one, with gains in [0,1] and thresholds in [0,1): the attitude is first predicted by one normalised Euler step; the accelerometer correction multiplies the tilt error (one minus the cosine of the angle to straight down) by the factor `remaining` of the gain, and for a downward predicted gravity it is a turn about a horizontal axis perpendicular to it; the magnetometer correction is a turn about the vertical that multiplies the heading error by its own factor and never overshoots; the update fails exactly when the turned field has no horizontal part or points exactly backwards. The factor is at most 1-k^2, is 1 for gain 0 and 0 for gain 1. VIOLATION: when gravity is predicted upwards or level with a negative y component the correction can turn the wrong way (a quarter-turn error becomes a half-turn error).", "quantifier": "for all reachable filters, attitudes, rates, unit accelerations, fields, gains and thresholds", "why_tests_cant": "continuous state and input space", "anchors": ["open_ahrs/src/aqua.rs: update (MARG branch), interpolate"]}
{"id": "C57", "title": "A MARG filter at rest converges", "statement": "In exact arithmetic, with the sensor at rest (zero rate, constant unit acceleration and field) and a fixed gain k: after any number n of successful updates the tilt error is at most (1-k^2)^n times the initial one if that is below a quarter turn; if the attitude is level and the field does not point exactly backwards, every one of any number of updates succeeds, the attitude stays level, and the heading error after n updates is at most (1-beta^2)^n times the initial one.", "quantifier": "for all initial states, gains, fields and every number of updates", "why_tests_cant": "unbounded executions", "anchors": ["open_ahrs/src/aqua.rs: update (MARG branch), interpolate"]}
{"id": "C58", "title": "MARG mode with un-normalised acceleration", "statement": "In mode MARG the accelerometer correction uses the corrected acceleration without normalising it. In exact arithmetic, for any norm above EPSILON, a downward predicted gravity and a half-angle above the threshold, the correction still never raises the tilt error and the residual is given by a closed formula. VIOLATION: with gain 1 the attitude is levelled only if the norm is exactly 1, and with a sensor reporting m/s^2 at rest on its side every update fails with a NaN error, whatever the gains and the magnetometer.", "quantifier": "for all accelerations, attitudes and gains", "why_tests_cant": "continuous input space", "anchors": ["open_ahrs/src/aqua.rs: update (MARG branch)"]}
{"id": "C59", "title": "Direction of the gyrometer prediction", "statement": "With both correction gains zero a MARG update is, in exact arithmetic, the prediction alone: a turn about the measured rate by 2 atan(|w| t/2), which agrees with |w| t up to (|w| t)^3/12, multiplied on the right of the attitude as in the AngularRate filter. VIOLATION: the corrections treat the attitude as the rotation from the global to the sensor frame, for which the rate must act with the opposite sign, so that the prediction increases the tilt error the corrections then reduce.", "quantifier": "for all reachable filters, attitudes, rates and periods", "why_tests_cant": "continuous input space", "anchors": ["open_ahrs/src/aqua.rs: update (prediction step)", "open_ahrs/src/common.rs: calculate_omega_matrix"]}
{"id": "C60", "title": "Rounding error of dot, matrix and Hamilton products", "statement": "In f32 the dot product, every cell of a matrix product and the Hamilton product (both variants) of finite operands of moderate size succeed, are finite and lie within a proportional rounding bound of the true product: (n+1)*6.25e-8 times the sum of the magnitudes of the products for dot and matrix products, 1e-6 |p||q| for the quaternion product, plus an underflow term below 2^-138; the Hamilton product is associative up to 5e-6 |p||q||r|. VIOLATION: it is not associative exactly, and a dot product whose terms overflow is a success with value NaN although the true value is 0.", "quantifier": "for all finite f32 operands within the stated magnitude, every size and every libm", "why_tests_cant": "2^32 values per component; a rounding bound is a statement about all of them", "anchors": ["linalg/src/vector.rs: dot_product", "linalg/src/matrix.rs: mul_new", "quaternion/src/quaternion.rs: mul, mul_new"]}
{"id": "C61", "title": "Rotating vectors in f32", "statement": "For every finite f32 quaternion of norm 1 within d <= 1/100, convert_to_dcm succeeds with entries within 5d+1e-6 of a true rotation matrix, rotate and rotate_in_place succeed, agree, and are within (15d+4e-6)|x| of the true rotation, so that the length changes by no more than that; after normalize the error is at most 3e-5 |x|; rotating and rotating back with the conjugate returns the vector up to (31d+9e-6)|x| (all bounds plus an underflow term below 2^-136).", "quantifier": "for all finite f32 quaternions and vectors within the stated ranges, every libm", "why_tests_cant": "2^224 inputs; a rounding bound is a statement about all of them", "anchors": ["quaternion/src/quaternion.rs: convert_to_dcm, rotate, rotate_in_place, conjugate", "linalg/src/vector.rs: normalize"]}
{"id": "C62", "title": "Tracking error of the AngularRate filter in f32", "statement": "With the ClosedForm method, sin and cos accurate to d and a finite sampling period t: from an attitude of norm 1 within 1e-6 every update whose measurement the gyrometer accepts (|w| t at most 1000) succeeds, leaves an attitude of norm 1 within 1e-6 and within 7e-6 + 2e-6 |w| t + 5 d of the exactly turned one; over any number of updates these errors only add up (plus EPSILON t per update for rates the filter ignores). VIOLATION: rates below 0.97 EPSILON (20 degrees per hour, more than the Earth's rotation) are never seen, whatever the method and however long they last.", "quantifier": "for all filter states, rates, periods, libm implementations of the stated accuracy, and every number of updates", "why_tests_cant": "unbounded executions over 2^32-valued inputs; accumulation of rounding errors", "anchors": ["open_ahrs/src/ar.rs: update", "linalg/src/vector.rs: normalize, calculate_norm"]}
{"id": "C63", "title": "Accuracy of one AM update in f32", "statement": "A live Aqua filter in mode AM whose corrected acceleration and field have lengths between 2 EPSILON and 2^60, the field being at least a thousandth of its length off the vertical: the f32 update succeeds; the reported attitude has norm 1 within 1e-6, turns the measured acceleration straight down within 3e-5 and leaves a field whose second component is at most 1e-4 of its length and whose first component is positive. VIOLATION: in free fall (acceleration exactly zero) the update is not refused: it succeeds and reports the same attitude as an acceleration along the third axis.", "quantifier": "for all filter histories, calibrations, f32 measurements in the stated ranges, every libm", "why_tests_cant": "2^192 measurements times all calibrations; a rounding bound is a statement about all of them", "anchors": ["open_ahrs/src/aqua.rs: update (lines 259-505), get_attitude", "linalg/src/vector.rs: normalize"]}
{"id": "C64", "title": "What print writes", "statement": "Printing any initialised vector or matrix a program can get hold of succeeds and writes exactly the elements that get_element returns, row by row, with the separators of the documented layout; print_attitude of the AngularRate filter writes the four components that get_attitude returns, and before a successful init writes nothing and reports ARFilterNotInit. VIOLATION: print of a container that was never initialised does not report NotInit as every other method does: it succeeds and writes an empty line.", "quantifier": "for all programs (any sequence of public calls with any arguments), all outputs so far", "why_tests_cant": "the output of a function is not looked at by unit tests; all reachable containers", "anchors": ["linalg/src/vector.rs:162-174", "linalg/src/matrix.rs:229-245", "open_ahrs/src/ar.rs:182-193"]}
{"id": "C65", "title": "eigen finds the eigenvalues of a positive definite matrix", "statement": "For a symmetric matrix whose eigenvalues all exceed EPSILON, unshifted eigen succeeds (exact arithmetic) with an orthogonal matrix of eigenvectors; its eigenvalues are all zero if the budget ran out, and otherwise sum to the trace and satisfy |A v_j - l_j v_j| <= sqrt(EPSILON tr max(1, tr)) for every column, i.e. 1% of the trace when the trace is at least 1. A budget of 65500 iterations always suffices for sizes 1 to 3, and for size 4 unless the diagonal is concentrated in the lower corner. VIOLATION: because small changes are flushed to zero in absolute value, in f32 the matrix [[128,10],[10,512]]/2^20 gets a first eigenvalue off by more than 40%.", "quantifier": "for all symmetric matrices of size 1 to 4 with eigenvalues above EPSILON, all iteration budgets", "why_tests_cant": "convergence of an iteration from every starting matrix, and a bound on the number of steps", "anchors": ["linalg/src/linalg.rs:92-209", "linalg/src/matrix.rs:1158-1208"]}
{"id": "C66", "title": "the MARG filter settles at rest in f32", "statement": "Aqua in mode MARG with fixed gains, f32 arithmetic, any calibration and any libm: while a body is at rest near the attitude the filter holds (tilt error at most 9% of the horizontal field part, heading error at most about 29 degrees), every update succeeds; each takes four fifths of the gain off the tilt error and off the heading error, up to explicit terms for the gyrometer rates, the accelerometer and magnetometer errors and the rounding. After n updates the tilt error is at most (1 - 4/5 ka)^n times the first plus drift/(4/5 ka), the heading error likewise plus a term n r^n; so the errors settle below explicit remainders after a number of updates that depends only on the gains, the field and the margin.", "quantifier": "for all live MARG filters with fixed gains in [0,1] and thresholds up to 0.9, all true attitudes, all sequences of measurements at rest of any length, all libms", "why_tests_cant": "an error bound for unbounded sequences of arbitrary noisy measurements, including every rounding", "anchors": ["open_ahrs/src/aqua.rs:206-231", "open_ahrs/src/aqua.rs:259-505"]}
{"id": "C67", "title": "an AM update recovers the true attitude", "statement": "Aqua in mode AM, f32 arithmetic, any calibration and any libm: for every true attitude, if the measured direction of gravity is within eta of the true one and the measured direction of the field is within mu of the true one, with horizontal part h of the field, and mu + 1.02 eta + 0.00014 is at most h/3, then the update succeeds and the attitude reported has a tilt error of at most eta/2 + 0.000015 and a heading error of at most 0.51 (mu + 1.02 eta + 0.00014)/h (sines of half the tilt and half the heading angle of the turn still missing, the measure used in C66). No attitude is singular, level, upside down or otherwise.", "quantifier": "for all live AM filters, all true attitudes, all fields at least 2/1000 off the vertical, all measurements of length between 2 EPSILON and 2^60 within the error bounds, all libms", "why_tests_cant": "all attitudes, all noise vectors within a ball and every rounding; singular attitudes are a null set that tests miss", "anchors": ["open_ahrs/src/aqua.rs:259-505", "open_ahrs/src/aqua.rs:507-517"]}
{"id": "C68", "title": "backward error of the LU factorisation, the solve and the inverse", "statement": "f32 arithmetic, any n x n matrix with 1 <= n <= 4. Write amp(x) = |x| + 2^-124. Whenever lup succeeds, the permuted matrix differs from L U by at most 2e-7 times the product amp(L) amp(U), entry by entry. Whenever lup and solve succeed, the residual of the solution returned is at most 7e-7 times amp(L) (amp(U) amp(x) + 2^-124), row by row. Whenever invert succeeds, A times the result differs from the identity by the same bound in each column. These bounds do not make the residual small against |A| |x|: the pivot search compares signed values, and on x + K y = 1, -K x + K y = 0 with K = 2^24, a well conditioned system, solve returns (0, 1/K) whereas the solution is (1/(K+1), 1/(K+1)), so the second equation is missed by 1 (violation).", "quantifier": "for every f32 matrix up to 4x4, every right hand side, every input for which the calls succeed, including overflow on the way and subnormal values", "why_tests_cant": "A test compares one solution with one reference value; how rounding errors propagate through elimination and substitution has to be bounded for all matrices.", "anchors": ["linalg/src/linalg.rs: lup, solve", "linalg/src/matrix.rs: invert"]}
{"id": "C69", "title": "Euler angles in f32", "statement": "f32 arithmetic, a libm whose asin and atan2 are off by at most d, a quaternion of norm 1 within h <= 1/100 (1e-6 for the attitudes the filters report). If roll, pitch and yaw are the Euler angles of its rotation and cos^2(pitch) is at least 8 (5 h + 1e-6), then convert_to_euler succeeds with three finite angles and the sine of half the error of each of them is at most (5 h + 1e-6)/cos(pitch) + d/2.", "quantifier": "for every f32 quaternion of norm close to 1 and every libm of the stated accuracy, at any attitude that is not within about half a degree of gimbal lock (for h = 1e-6)", "why_tests_cant": "Three transcendental functions of rounded arguments; the amplification near gimbal lock cannot be sampled.", "anchors": ["quaternion/src/quaternion.rs: convert_to_euler"]}
{"id": "C70", "title": "First-order methods of the AngularRate filter in f32", "statement": "f32 arithmetic, a filter with the Taylor method of order 1 (pow(x, 1) right up to a factor 1 + d) or the Euler method (no libm needed), an attitude q of norm 1 within 1e-6, a reported rate w with |w| t <= 1000. The update succeeds, the new attitude has norm 1 within 1e-6 and is within (|w| t)^3/23 + 6e-6 + 5 d of q turned by w t about the body axes (Taylor); over any number of updates these errors only add up (plus EPSILON t per update for ignored rates). The Euler method obeys the same bound around q turned about the axes of the REFERENCE frame (violation: the product is on the wrong side).", "quantifier": "for every libm of the stated accuracy, every history, every attitude of norm 1 within 1e-6, every rate and period with |w| t <= 1000 and every run of successful updates of any length", "why_tests_cant": "The truncation error and the rounding errors of unboundedly many updates accumulate; tests only see a few steps of a few rates.", "anchors": ["open_ahrs/src/ar.rs: update (TaylorSeries, Euler)"]}
{"id": "C71", "title": "Cholesky factor in f32", "statement": "f32 arithmetic. Whenever chol of an n x n matrix succeeds, the diagonal of the result is not negative (positive except perhaps in the last place) and the lower triangle times its transpose is the lower triangle of A up to 3e-7 times the product of the magnitudes (plus 1.2e-6 * 2^-124). For exactly symmetric 2 x 2 matrices the element above the diagonal is at most 0.5 percent of the product of the first column. Violation: the cells above the diagonal are rounding residues divided by EPSILON instead of zeros; on the positive definite [[8,6,0],[6,8,5],[0,5,8]] the returned factor has -127.4 in the top right corner and L L' has 16000 instead of 8 in the first cell.", "quantifier": "for every libm, every finite f32 matrix up to 4 x 4 on which chol succeeds, symmetric or not", "why_tests_cant": "The residues above the diagonal vanish for the matrices with exact square roots that tests use; they show up only through rounding, and the error bound quantifies over all f32 matrices.", "anchors": ["linalg/src/matrix.rs:1489-1560 chol"]}
{"id": "C72", "title": "chiaverini in f32", "statement": "f32 arithmetic. If q is a unit quaternion with w at least 1/10 and no vector component beyond sqrt(1/2), and every cell of an f32 matrix is within e (up to 5e-5) of the rotation matrix of q, chiaverini succeeds, its result has norm 1 within 1e-6 and is within 2 sqrt(3e + 7e-7) + 40e + 3e-6 of q. Hence an f32 quaternion of norm 1 within 1e-6 comes back from convert_to_dcm followed by chiaverini within 0.01. Violation: the square root is not avoidable; (1, 2^-13, 0, 0), a rotation of 2^-12 rad, comes back as exactly the identity.", "quantifier": "for every libm, every f32 matrix near a rotation matrix in the stated range, every error e; witness for every libm", "why_tests_cant": "Tests compare a few well-conditioned rotations with a tolerance; neither the worst error over all matrices nor the loss of small rotations shows up there.", "anchors": ["quaternion/src/quaternion.rs:574-620 chiaverini", "quaternion/src/quaternion.rs convert_to_dcm"]}
{"id": "C73", "title": "qr_decomp in f32", "statement": "f32 arithmetic. For every n x n matrix whose columns are at most 2^58 long qr_decomp succeeds, and R is the rounded Q'A. Either the columns of Q have length 1 within 1e-6 and A is, up to 1e-6 of the length of each column, Q times an upper triangular matrix with positive diagonal; or the matrix is singular up to rounding (a combination of columns, with coefficient 1 for the last one involved, is at most 1.1e-4 long up to 2e-6 of the lengths that go into it). If no column is longer than M and no vector is shrunk by more than sigma, with sigma at least 2e-4 and 2e-5 M, then Q'Q = I up to 3e-5 M/sigma, R is upper triangular up to 1.3e-4 M M/sigma and QR = A up to 6e-4 M M/sigma. Violation: for [[390,780],[390,780]], whose columns are parallel, the stopping test misses because the remainder is rounding noise above EPSILON; the columns of Q come out the same up to sign and QR exceeds 1.9 A.", "quantifier": "for every libm, every f32 matrix with columns up to 2^58, every n; witness for every libm", "why_tests_cant": "Tests factor one or two well-conditioned matrices with a tolerance; the dependence on the conditioning and the noise above an absolute threshold are not visible there.", "anchors": ["linalg/src/matrix.rs:1158-1208 qr_decomp"]}
{"id": "C74", "title": "Recognising rotations in f32", "statement": "f32 arithmetic, 3 x 3. When lup succeeds with first two pivots of at least 1/2 and the elements are at most 1.01, det is within 6.6e-5 of the true determinant; if moreover the rows are orthonormal up to 9e-5 and the determinant is 1 up to 3e-5, is_so_n and is_orthogonal answer yes. Violations. Refused: every matrix with zero in the lower left corner, a first element of at least 2e-4, nothing positive below it and in the middle of the last row a non-negative number up to 9e-5 exceeding the element below the first one is reported Singular by det, is_so_n, is_orthogonal, log and invert, whatever the other elements are; so every clockwise turn about z below a right angle (also over exact reals) and every counterclockwise turn about x by at most 9e-5 rad is. Answered no: the rotation of the unit quaternion (40,-41,56,12)/81, stored as the nearest f32 matrix, because the determinant from the small first pivot is off by more than EPSILON. Over exact reals: a turn about z by t is recognised if and only if sin t >= 0 and cos t >= 0; a turn about x is refused if and only if 0 < sin t < EPSILON, or sin t <= 0 and |cos t| < EPSILON; a turn about y if and only if cos t < EPSILON and -sin t < EPSILON. In f32 acceptance can be read off the elements: if the largest element of the first column is at least 1/2 in magnitude, the comparison selecting the second pivot is decided by 1e-6 and that pivot is at least 0.501 in magnitude, a matrix orthonormal up to 9e-5 with determinant 1 up to 3e-5 is recognised; so is every f32 matrix within 1e-6 of a turn about z with sine and cosine at least 1e-5, and its logarithm is computed as in C88. Conversely, for every f32 matrix of any size and elements, a yes of is_so_n or is_orthogonal means that it is square and that every element of R R', computed exactly, is within 1.01e-4 of the identity; for 3 x 3 the magnitude of the determinant is then within 1.6e-4 of 1. A 3 x 3 f32 matrix for which is_so_n answers yes has a true determinant within 1.6e-4 of 1, sign included, however small the pivots were: a reflection is never recognised as a rotation. Likewise for 2 x 2, within 1.04e-4. Every 3 x 3 f32 matrix recognised by is_so_n agrees with some exact rotation matrix to 3e-4 in every element, and every one recognised by is_orthogonal with some exactly orthogonal matrix whose determinant has the same sign.", "quantifier": "for every libm, every f32 matrix in the stated classes; every angle; witness for every libm", "why_tests_cant": "Tests call is_so_n on one rotation; which rotations the pivot search loses and how the determinant error depends on the pivots is not visible from examples.", "anchors": ["linalg/src/matrix.rs:1266-1294 det", "linalg/src/matrix.rs:1599-1660 is_orthogonal, is_so_n", "linalg/src/linalg.rs lup"]}
{"id": "C75", "title": "Inverse and exponential of a quaternion in f32", "statement": "f32 arithmetic. invert of a quaternion of norm between 2e-4 and 2^58 succeeds and the product with the original, on either side and computed exactly, is 1 up to 3e-6. exp_new of a quaternion with real part at most 9.8e-5 and vector part v of length between 2e-4 and B <= 1000 is (cos|v|, sin|v| v/|v|) up to (3 + |v|) 1e-6 + 3 d when sin and cos are accurate to d. With a real part w of 1.03e-4 to 40 in size exp_new is the quaternion exponential up to e^w ((3 + |v|) 1e-6 + 5 d), d covering pow(E, x) as well; the same holds for exp in place, for every w up to 40 in size, as long as cos|v| is not small. Violations: when cos|v| is within about 9e-5 of 0 exp in place ignores the real part; a finite quaternion with a component of 2^64 or more is inverted to exactly zero with the outcome Ok, and the exponential of every quaternion with vector components of at most 9.8e-5 is exactly 1, whatever the real part.", "quantifier": "for every f32 quaternion in the stated ranges and every libm (C75_exp: every libm accurate to d)", "why_tests_cant": "The relative error of the inverse over 60 binades, and the class of inputs for which it is silently zero, cannot be enumerated.", "anchors": ["quaternion/src/quaternion.rs:393-404 invert", "quaternion/src/quaternion.rs:453-478 exp", "quaternion/src/quaternion.rs:481-508 exp_new"]}
{"id": "C76", "title": "Interpolation in f32", "statement": "f32 arithmetic, vectors of any size the library allows. lerp with a fraction in [0,1] and ends of magnitude at most M <= 2^100 is (1-k)a + kb up to 2e-7 M + 2^-140 in every component; at 0 and at 1 it is exactly the first and the second end, without any bound on the magnitude. slerp of vectors of unit length (to 1e-3) at an angle t whose sine is at least 1/10, with sine and arc cosine accurate to d <= 4e-5, is the point of the great circle at the fraction k up to 10 (d + 1e-6) / sin^3 t in every component. Violation: whenever the computed scalar product is 1 or more slerp fails with a NaN error for every fraction (sin and acos as in IEEE 754); so slerp from the attitude 1 to itself always fails.", "quantifier": "for every size, every pair of f32 vectors and every fraction in the stated ranges; every libm with the stated accuracy", "why_tests_cant": "The error of slerp grows with the third power of 1/sin t; a test at one angle says nothing about another.", "anchors": ["linalg/src/vector.rs:567-600 slerp", "linalg/src/vector.rs:603-632 lerp"]}
{"id": "C77", "title": "hughes in f32", "statement": "f32 arithmetic. For a unit quaternion q with w >= 1/10 and 1 - w^2 >= 5e-5, and an f32 matrix within e <= 1e-5 of its rotation matrix, hughes succeeds and the result is within (3 e + 2e-6) / w^2 of the conjugate of q, the inverse rotation; the way from an f32 quaternion to its matrix and back ends within 2.1e-5 / w^2 of the conjugate. Violations: the answer is the inverse rotation (the turn by 120 degrees about (1,1,1) comes back at least 0.9 from itself and from its negative), and every rotation with 1 - w^2 <= 1.8e-5 (0.48 degrees), with cells off by at most 5e-6, comes back as exactly the identity.", "quantifier": "for every libm, every unit quaternion and every f32 matrix in the stated ranges", "why_tests_cant": "A continuum of rotations and of perturbed matrices; the error grows like 1/w^2.", "anchors": ["quaternion/src/quaternion.rs: hughes"]}
{"id": "C78", "title": "Sensor calibration in f32", "statement": "f32 arithmetic. For every sensor a program can reach and initialised with configuration c, whatever happened to it before: if the raw reading is finite, readings and biases are at most 2^60 and coefficients at most 2^50 in size, update succeeds, leaves the configuration, and every reported axis is the calibration matrix applied to (raw - bias) up to 3.1e-7 times the sum of the absolute terms plus 1e-20. For a diagonal calibration the error is 3.1e-7 relative to the value itself. Violation: with cross coefficients it is not; an accelerometer with coefficients 1 and -1 reports exactly 0 for a reading whose calibrated value is 1.", "quantifier": "for every libm, every sensor kind, every reachable sensor and every configuration and reading in the stated ranges", "why_tests_cant": "A continuum of configurations and readings after any history; the failure is a cancellation.", "anchors": ["open_ahrs/src/gyrometer.rs: correct, update", "open_ahrs/src/accelerometer.rs: correct, update", "open_ahrs/src/magnetometer.rs: correct, update"]}
{"id": "C79", "title": "From raw readings to the attitude", "statement": "f32 arithmetic, Aqua in mode AM, any calibration, any history, any libm. Let the exact calibrated acceleration and field (coefficients times raw reading minus bias) have lengths between 3e-4 and 2^59 and point within eta of the true vertical and within mu of the true field, for a true attitude t with horizontal field part h; let no axis be a difference of contributions larger than Ka, Km times the whole length. Then an update with the raw f32 readings succeeds and its attitude has norm 1 within 1e-6, tilt error at most (eta + 1.3e-6 Ka)/2 + 1.5e-5 and heading error at most 0.51 rho/h, rho = mu + 1.3e-6 Km + 1.02 (eta + 1.3e-6 Ka) + 1.4e-4, provided rho <= h/3.", "quantifier": "for every libm, every live filter in mode AM, every pair of calibrations, every raw reading in the stated ranges and every true attitude", "why_tests_cant": "End-to-end over a continuum of calibrations, readings and attitudes; rounding of calibration, normalisation and the attitude formula together.", "anchors": ["open_ahrs/src/aqua.rs: update", "open_ahrs/src/accelerometer.rs: update", "open_ahrs/src/magnetometer.rs: update"]}
{"id": "C80", "title": "Sarabandi in f32", "statement": "f32 arithmetic, any libm. For every unit quaternion q, every f32 matrix within e <= 1/100 per cell of its rotation matrix, and no threshold or one of size at most 1/2, sarabandi succeeds and returns components that are not negative and within 2e + 2e-6 of the absolute values of the components of q, for all rotation angles including half turns. Round trip of a unit f32 quaternion through convert_to_dcm: within 1.4e-5. When no component of q is negative the result is within 4e + 4e-6 of q. Violation: when q has a component of at least m and one of at most -m, the result is at distance at least 2m - 2e - 2e-6 from q and from -q; the signs are lost.", "quantifier": "for every libm, every unit quaternion, every matrix within 1/100 of its rotation matrix and every threshold of size at most 1/2", "why_tests_cant": "Error bound over a continuum of rotations, including the neighbourhood of the branch threshold and of vanishing denominators, for every matrix perturbation.", "anchors": ["quaternion/src/quaternion.rs: sarabandi"]}
{"id": "C81", "title": "Frobenius norm", "statement": "calculate_frobenius_norm of an initialised matrix is the square root of the sum of the squares of its cells: exactly over the reals; in f32, for norms up to 2^60, with relative error at most 1.2e-6 plus 2^-70. It never fails and never returns NaN or a negative value for finite cells. For a vector turned into a one-column matrix it differs from calculate_norm only in that calculate_norm replaces norms up to EPSILON by zero. Violations: a cell of magnitude 2^64 or more makes the result +infinity with outcome Ok; cells of at most 2^-76 give zero although the matrix is not zero.", "quantifier": "for every shape, every matrix, every libm", "why_tests_cant": "Continuum of matrices of sixteen shapes; rounding of up to sixteen accumulated squares; overflow and underflow thresholds.", "anchors": ["linalg/src/matrix.rs: calculate_frobenius_norm", "linalg/src/vector.rs: convert_to_matrix, calculate_norm"]}
{"id": "C82", "title": "Sizes, columns and vectors of u8", "statement": "is_same_size_as answers true exactly when both objects have the same readable elements, is_square exactly when the readable cells are symmetric; both always answer for initialised objects. convert_to_matrix gives the one-column matrix with the same components, and col_to_vector(0) returns the vector. A new Vector<u8> holds zeros; its set_element reports NotInit before InvalidRow and leaves the vector unchanged on error, otherwise the value is read back and no other element changes.", "quantifier": "for every arithmetic, every pair of initialised objects of any sizes, every u8 vector, every index and value", "why_tests_cant": "All pairs of shapes and all contents; the frame condition covers every other element.", "anchors": ["linalg/src/matrix.rs: is_same_size_as, is_square", "linalg/src/vector.rs: is_same_size_as, convert_to_matrix, set_element (u8)"]}
{"id": "C83", "title": "Raw gyrometer samples to attitude", "statement": "Feeding any number of raw gyrometer samples of ordinary size to a live ClosedForm filter in f32 never fails, and the attitude stays within the initial error plus, per sample, 7e-6 + 2e-6 |w| t + 5 d + EPSILON t + 0.501 e t of the body turned at its true rates w, where e is the distance of the exact calibrated sample from w plus 6.3e-7 times the total size of the contributions of the axes. Rotations at two rates differ by at most half the angle between the rate vectors times t.", "quantifier": "for every libm with sin and cos accurate to d, every history of a live filter, every calibration, every list of samples and true rates", "why_tests_cant": "The run may have any length, the calibration and the noise are arbitrary, and the true attitude is compared as real numbers.", "anchors": ["open_ahrs/src/ar.rs: update", "open_ahrs/src/gyrometer.rs: correct, update"]}
{"id": "C84", "title": "Taylor orders above one", "statement": "A higher order of the Taylor series should bring the attitude closer to the true one. It does not: because the powers of the matrix are taken cell by cell, one update of any order from 2 to 20, from the identity, at any rate w with |w| t at most 1/4, ends at least (|w| t)^2 / 40 away from the true attitude (and from its negative), while order 1 ends within (|w| t)^3 / 24, which is less.", "quantifier": "in exact arithmetic, for every live filter at the identity, every calibration, every rate and period with |w| t <= 1/4, every order from 2 to 20", "why_tests_cant": "A lower bound on the error for every rate and order; a test shows one rate.", "anchors": ["open_ahrs/src/ar.rs: update (lines 123-132)", "linalg/src/matrix.rs: power_elements"]}
{"id": "C85", "title": "Complex arithmetic in f32", "statement": "The complex operations as they run in f32 give the textbook result up to rounding: negation and conjugation exactly, sum and difference within 6e-8 of the result, the product within 1.7e-7, the quotient within 4.3e-7, the module within 1.8e-7 (flushed to 0 near EPSILON), the polar form within 2d + 1e-7 of the radius when sin and cos are off by at most d, the exponential within 3d + 1.1e-7 of its modulus when exp is too. Multiplying and dividing by the same number gives the first one back within 7e-7. None of them fails on such numbers. Beyond that size this breaks down: a number with a part of magnitude 2^64 or more divided by itself gives NaN with the outcome Ok, and its module is an error.", "quantifier": "every pair of finite complex numbers of modulus at most 2^50 (divisor of modulus at most 2^15 in the round trip), divisors with a part above 1.02 EPSILON, every implementation of sin and cos with error at most d", "why_tests_cant": "Rounding errors relative to the modulus for every input, including cancellation in the parts, cannot be sampled.", "anchors": ["dsp/src/complex.rs: convert_from_polar, neg, conjugate, calculate_module, expo, add, sub, mul, div (lines 73-164)"]}
{"id": "C86", "title": "Determinants in f32", "statement": "det_naive in f32 is off from the determinant by at most n! + n + 1 roundings of the sum of the magnitudes of its terms, and never overflows. det in f32 succeeds whenever lup does (with pivots up to 2^20) and is, up to 2.4e-7 of the result, the determinant of a matrix close to the given one: cell by cell it differs by 2e-7 of the product of the magnitudes of L and U. For 4 x 4 matrices its sign is wrong exactly when the pivot permutation swaps two disjoint pairs.", "quantifier": "every f32 matrix up to 4 x 4 with entries up to 2^20 (det_naive) or pivots up to 2^20 (det), every libm", "why_tests_cant": "The rounding errors of all matrices cannot be sampled, and a backward error needs a witness matrix for every input.", "anchors": ["linalg/src/matrix.rs: det, det_naive", "linalg/src/linalg.rs: lup"]}
{"id": "C87", "title": "Raw gyrometer samples to attitude, first-order methods", "statement": "Feeding any number of raw gyrometer samples of ordinary size to a live filter on the Taylor series of order 1 in f32 never fails, and the attitude stays within the initial error plus, per sample, X^3 / 23 + 6e-6 + 5 d + EPSILON t + 0.501 e t of the body turned at its true rates w, where e is the distance of the exact calibrated sample from w plus 6.3e-7 times the total size of the contributions of the axes and X = (|w| + e) t; so convert_to_euler returns roll, pitch and yaw within (2 E + 1e-5)/cos(pitch) + a/2 of the true ones in the sense of C89, E being that bound and a the accuracy of asin and atan2. The Euler method needs no libm and obeys the same bound without d, but around the wrong trajectory: it turns about the axes of the reference frame.", "quantifier": "every libm with pow(x, 1) right up to a factor of 1 + d (any libm for Euler), every history of a live filter, every calibration, every list of samples and true rates", "why_tests_cant": "The run may have any length, the calibration and the noise are arbitrary, and the true attitude is compared as real numbers.", "anchors": ["open_ahrs/src/ar.rs: update", "open_ahrs/src/gyrometer.rs: correct, update"]}
{"id": "C88", "title": "Matrix logarithm in f32", "statement": "Given sine and arc cosine accurate to d, an f32 matrix within e of the rotation by t about a unit axis, whose determinant can be computed, has a logarithm in both forms (log and log_in_place), and every element is within 12 (e + d + 1e-6) / sin^2 t of t times the cross-product matrix of the axis. So does, with 2 e + 7e-6 in place of e + 1e-6, the rotation matrix convert_to_dcm computes from an f32 attitude within e of the quaternion of that rotation or of its negative. For small angles the property a user expects is false: once the computed trace reaches 3 both forms fail with a NaN error, and the form in place leaves R - R' behind.", "quantifier": "every libm, every f32 matrix near a rotation by any angle with e + 1e-6 <= sin^2 t / 200 and d <= sin t / 100; for the failure every f32 square matrix with computed trace from 3 to 100", "why_tests_cant": "The error combines rounding, the conditioning of acos near its ends and the accuracy of the libm over a continuum of rotations.", "anchors": ["linalg/src/matrix.rs: log, log_in_place, trace, is_so_n"]}
{"id": "C89", "title": "From readings to Euler angles in f32", "statement": "An f32 attitude of norm 1 within 1e-6 whose tilt and heading errors relative to a true attitude add up to s yields, through convert_to_euler, three finite angles; the sine of half the error of each is at most (2.01 s + 8e-6)/cos(pitch) + d/2, where d is the accuracy of asin and atan2, provided cos(pitch) is at least 0.01 and at least 20 s. Hence raw accelerometer and magnetometer readings processed in mode AM give roll, pitch and yaw within an explicit bound of the true ones, and so does mode MARG with fixed gains after a number of updates at rest that depends only on the gains, the horizontal field and the margin, and so does the angular-rate filter in closed form fed with any number of raw gyrometer samples.", "quantifier": "every libm with asin and atan2 accurate to d, every true attitude away from gimbal lock, every calibration, every raw reading in the ranges of C79, every run at rest in the sense of C66, every list of samples in the sense of C83", "why_tests_cant": "End-to-end over a continuum of attitudes, calibrations and readings, with amplification near gimbal lock.", "anchors": ["open_ahrs/src/aqua.rs: update", "quaternion/src/quaternion.rs: convert_to_euler"]}
{"id": "C90", "title": "An adaptive gain is invisible while the acceleration is undisturbed", "statement": "As long as the norm of every corrected acceleration is within the first threshold of the reference, each call returns the same on a filter with an adaptive gain as on one that differs only in having a fixed gain, and leaves the same state, whatever the arithmetic; two filters initialised alike but for the flag are such a pair. Hence in exact arithmetic a filter with an adaptive gain and a reference within the first threshold of one keeps its gain at rest and settles its tilt and then its heading as C57 says; and in f32 a filter with an adaptive gain settles at rest like one with a fixed gain if the reference suits accelerations of length about one, which the correction needs (C58), and its Euler angles end as near to the true ones as those of C89. With the default reference of 9.81 it does not: the first update at rest switches the gain off for ever.", "quantifier": "every arithmetic and libm, every history of calls, every finite sequence of calls; every run at rest in the sense of C66", "why_tests_cant": "A relation between two executions of any length, over every state and configuration; the violation is a statement about all later calls.", "anchors": ["open_ahrs/src/aqua.rs: update", "open_ahrs/src/aqua.rs: calculate_adaptative_gain", "open_ahrs/src/aqua.rs: init"]}
{"id": "C91", "title": "From readings to directions in f32", "statement": "An f32 attitude of norm 1 within 1e-6 whose tilt and heading errors relative to a true attitude add up to s <= 1/20 turns vectors as the true one does: rotate gives what the body sees of a vector of the reference frame, rotate with the conjugate gives back the vector of the reference frame from what the body sees, and convert_to_dcm gives the true matrix, all up to 2.01 s + 1.9e-5 times the length of the vector. Hence so do the attitudes that mode AM computes from raw readings, that mode MARG with a fixed gain, or with an adaptive gain and a suitable reference, has after enough updates at rest, and that the angular-rate filter in closed form or on the Taylor series of order 1 has after any number of raw samples.", "quantifier": "every libm (accurate sine and cosine for the angular-rate filter only), every true attitude, every vector of length up to 2^100, every calibration and reading in the ranges of C79, every run at rest in the sense of C66 and C90, every list of samples in the sense of C83", "why_tests_cant": "End-to-end over a continuum of attitudes, calibrations, readings and vectors; no test can bound the error of all of them.", "anchors": ["open_ahrs/src/aqua.rs: update", "quaternion/src/quaternion.rs: rotate, conjugate, convert_to_dcm"]}
