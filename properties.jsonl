{"id": "C01", "title": "Quaternion product is the Hamilton product", "statement": "For any two Quaternions, p*q has scalar part w1*w2 - v1.v2 and vector part w1*v2 + w2*v1 + v1 x v2; hence the product is associative, bilinear, has Quaternion(0,0,0,1) as two-sided unit, |p*q| = |p||q| and conjugate(p*q) = conjugate(q)*conjugate(p). Scalar products multiply every component; any other operand type raises AssertionError.", "quantifier": "all finite quaternions and scalars", "why_tests_cant": "The input is a continuum of real tuples; unit tests check a handful of literals to a tolerance.", "anchors": ["hand_eye_calibration/python/hand_eye_calibration/quaternion.py:Quaternion.__mul__", "hand_eye_calibration/python/hand_eye_calibration/quaternion.py:Quaternion.__rmul__", "hand_eye_calibration/python/hand_eye_calibration/quaternion.py:Quaternion.conjugate", "hand_eye_calibration/python/hand_eye_calibration/quaternion.py:Quaternion.norm"]}
{"id": "C02", "title": "Quaternion inverse and division", "statement": "For every non-zero Quaternion, q*q.inverse() and q.inverse()*q are exactly the identity, and p/q is the unique r with r*q = p. For the zero quaternion inverse() does not raise: it silently returns a quaternion with non-finite components.", "quantifier": "all finite quaternions, including zero", "why_tests_cant": "The input is a continuum of real tuples; unit tests check a handful of literals to a tolerance.", "anchors": ["hand_eye_calibration/python/hand_eye_calibration/quaternion.py:Quaternion.inverse", "hand_eye_calibration/python/hand_eye_calibration/quaternion.py:Quaternion.__truediv__"]}
{"id": "C03", "title": "rotate_vector and to_rotation_matrix are the same proper rotation", "statement": "For every unit Quaternion, rotate_vector(v) equals the vector part of q*v*conj(q) and equals to_rotation_matrix() applied to v; the matrix is orthogonal with determinant +1; q and -q give the same matrix; and the matrix of p*q is the product of the matrices of p and q.", "quantifier": "all unit quaternions and all vectors", "why_tests_cant": "The input is a continuum of real tuples; unit tests check a handful of literals to a tolerance.", "anchors": ["hand_eye_calibration/python/hand_eye_calibration/quaternion.py:Quaternion.rotate_vector", "hand_eye_calibration/python/hand_eye_calibration/quaternion.py:Quaternion.to_rotation_matrix", "hand_eye_calibration/python/hand_eye_calibration/quaternion.py:Quaternion.to_transformation_matrix"]}
{"id": "C04", "title": "Rotation matrix round trip", "statement": "For every unit quaternion with w != 0, from_rotation_matrix(to_rotation_matrix(q)) is q if w>0 and -q if w<0; for every rotation matrix R with trace != -1, to_rotation_matrix(from_rotation_matrix(R)) = R. For half-turn rotations (w = 0) the round trip silently yields non-finite components instead of a rotation.", "quantifier": "all unit quaternions; all 3x3 rotation matrices", "why_tests_cant": "The input is a continuum of real tuples; unit tests check a handful of literals to a tolerance. The half-turn set has measure zero and is never sampled.", "anchors": ["hand_eye_calibration/python/hand_eye_calibration/quaternion.py:Quaternion.from_rotation_matrix", "hand_eye_calibration/python/hand_eye_calibration/quaternion.py:Quaternion.to_rotation_matrix"]}
{"id": "C05", "title": "Quaternion.normalize", "statement": "normalize() turns every quaternion with norm > 1e-8 into the unit quaternion in the same direction and leaves every other quaternion unchanged; it never produces a non-finite component from finite input and is idempotent.", "quantifier": "all finite quaternions", "why_tests_cant": "The input is a continuum of real tuples; unit tests check a handful of literals to a tolerance.", "anchors": ["hand_eye_calibration/python/hand_eye_calibration/quaternion.py:Quaternion.normalize"]}
{"id": "C06", "title": "Angle-axis conversion round trip and its dead zone", "statement": "from_angle_axis(angle, axis) is a unit quaternion for every non-negligible axis; angle_axis(from_angle_axis(a, n)) returns (n, a) for every unit axis n and every a in (0, 2*pi) whose half-angle cosine is farther than 1e-5+1e-12 from 1; for every rotation closer than that to the identity (roughly below half a degree) the reported angle is exactly 0 about the x axis.", "quantifier": "all angles, all axes", "why_tests_cant": "The input is a continuum of real tuples; unit tests check a handful of literals to a tolerance. The dead zone comes from the default relative tolerance of np.isclose and is invisible to tests with large angles.", "anchors": ["hand_eye_calibration/python/hand_eye_calibration/quaternion.py:Quaternion.from_angle_axis", "hand_eye_calibration/python/hand_eye_calibration/quaternion.py:Quaternion.angle_axis"]}
{"id": "C07", "title": "Slerp is constant-speed geodesic interpolation", "statement": "For unit q1, q2 and fraction t in [0,1], quaternion_slerp returns a quaternion whose norm is 1 (to 1e-16; exactly 1 unless the two inputs are within 1e-8 of parallel), starts at q1 and ends at q2, always takes the short arc, and its angle to the start is t times the total angle (within 1e-8 of parallel its dot product with the start is still the cosine of that angle, and it is the start up to 2e-16). Out-of-range fractions and non-unit inputs raise AssertionError.", "quantifier": "all unit quaternion pairs, all fractions", "why_tests_cant": "The input is a continuum of real tuples; unit tests check a handful of literals to a tolerance.", "anchors": ["hand_eye_calibration/python/hand_eye_calibration/quaternion.py:quaternion_slerp"]}
{"id": "C08", "title": "Lerp / nlerp", "statement": "quaternion_lerp returns q1 + t(q2-q1); nlerp returns the unit quaternion in that direction, except when the interpolant has norm <= 1e-8 (antipodal inputs at the midpoint), where it silently returns a non-unit quaternion.", "quantifier": "all unit quaternion pairs, all fractions", "why_tests_cant": "The input is a continuum of real tuples; unit tests check a handful of literals to a tolerance.", "anchors": ["hand_eye_calibration/python/hand_eye_calibration/quaternion.py:quaternion_lerp", "hand_eye_calibration/python/hand_eye_calibration/quaternion.py:quaternion_nlerp"]}
{"id": "C09", "title": "Angle between quaternions", "statement": "For unit quaternions not element-wise close, angle_between_quaternions(q1,q2) = 2*acos(q1.q2), which lies in [0, 2*pi], is symmetric, and is the rotation angle of the relative rotation; element-wise close pairs (relative 1e-5) are reported as exactly 0, and then the true angle between them is small.", "quantifier": "all unit quaternion pairs", "why_tests_cant": "The input is a continuum of real tuples; unit tests check a handful of literals to a tolerance.", "anchors": ["hand_eye_calibration/python/hand_eye_calibration/quaternion.py:angle_between_quaternions"]}
{"id": "C10", "title": "Angular velocity between quaternions", "statement": "For unit quaternions and t>0 the result is -(1/2) times the constant angular velocity that carries q1 to q2 in time t (world frame), it does not depend on the signs chosen for the two quaternions (away from half turns), and it is exactly zero for any relative rotation inside the angle-axis dead zone.", "quantifier": "all unit quaternion pairs, all positive durations", "why_tests_cant": "The input is a continuum of real tuples; unit tests check a handful of literals to a tolerance.", "anchors": ["hand_eye_calibration/python/hand_eye_calibration/quaternion.py:angular_velocity_between_quaternions"]}
{"id": "C11", "title": "Dual quaternion algebra", "statement": "Dual quaternion multiplication is associative, distributes over addition, has DualQuaternion.identity() as unit, and scalar multiplication scales all eight components; unit dual quaternions (|rot|=1, rot.dual=0) are closed under multiplication, inverse and conjugation.", "quantifier": "all finite dual quaternions", "why_tests_cant": "The input is a continuum of real tuples; unit tests check a handful of literals to a tolerance.", "anchors": ["hand_eye_calibration/python/hand_eye_calibration/dual_quaternion.py:DualQuaternion.__mul__", "hand_eye_calibration/python/hand_eye_calibration/dual_quaternion.py:DualQuaternion.__add__", "hand_eye_calibration/python/hand_eye_calibration/dual_quaternion.py:DualQuaternion.conjugate"]}
{"id": "C12", "title": "Dual quaternion inverse", "statement": "For every dual quaternion whose rotation part has norm > 1e-8 (normalised or not), dq*dq.inverse() and dq.inverse()*dq are exactly the identity, and division is multiplication by the inverse; if the norm is <= 1e-8, inverse() raises AssertionError.", "quantifier": "all finite dual quaternions", "why_tests_cant": "The input is a continuum of real tuples; unit tests check a handful of literals to a tolerance.", "anchors": ["hand_eye_calibration/python/hand_eye_calibration/dual_quaternion.py:DualQuaternion.inverse", "hand_eye_calibration/python/hand_eye_calibration/dual_quaternion.py:DualQuaternion.__truediv__", "hand_eye_calibration/python/hand_eye_calibration/dual_quaternion.py:DualQuaternion.norm"]}
{"id": "C13", "title": "Pose <-> dual quaternion round trip", "statement": "from_pose(x,y,z,q).to_pose() returns the same translation and the normalised quaternion with its sign chosen so that qw >= 0, for every translation and every quaternion with norm > 1e-8; from_pose_vector(to_pose(dq)) is dq or -dq for every unit dual quaternion.", "quantifier": "all translations, all quaternions with norm > 1e-8; all unit dual quaternions", "why_tests_cant": "The input is a continuum of real tuples; unit tests check a handful of literals to a tolerance.", "anchors": ["hand_eye_calibration/python/hand_eye_calibration/dual_quaternion.py:DualQuaternion.from_pose", "hand_eye_calibration/python/hand_eye_calibration/dual_quaternion.py:DualQuaternion.to_pose", "hand_eye_calibration/python/hand_eye_calibration/dual_quaternion.py:DualQuaternion.from_pose_vector"]}
{"id": "C14", "title": "Dual quaternion product is composition of rigid transforms", "statement": "For unit dual quaternions, to_matrix(a*b) = to_matrix(a) to_matrix(b), to_matrix(inverse) is the inverse matrix, to_matrix(identity) is the identity, and dq and -dq have the same matrix.", "quantifier": "all unit dual quaternions", "why_tests_cant": "The input is a continuum of real tuples; unit tests check a handful of literals to a tolerance.", "anchors": ["hand_eye_calibration/python/hand_eye_calibration/dual_quaternion.py:DualQuaternion.to_matrix", "hand_eye_calibration/python/hand_eye_calibration/dual_quaternion.py:DualQuaternion.__mul__", "hand_eye_calibration/python/hand_eye_calibration/dual_quaternion.py:DualQuaternion.inverse"]}
{"id": "C15", "title": "Point transformations", "statement": "For unit dq with rotation R and translation t, passive_transform_point(p) = R p + t, active_transform_point undoes it, and (a*b).passive_transform_point(p) = a.passive_transform_point(b.passive_transform_point(p)).", "quantifier": "all unit dual quaternions, all points", "why_tests_cant": "The input is a continuum of real tuples; unit tests check a handful of literals to a tolerance.", "anchors": ["hand_eye_calibration/python/hand_eye_calibration/dual_quaternion.py:DualQuaternion.passive_transform_point", "hand_eye_calibration/python/hand_eye_calibration/dual_quaternion.py:DualQuaternion.active_transform_point"]}
{"id": "C16", "title": "In-place operations never change the pose", "statement": "to_pose, to_matrix, normalize and enforce_positive_q_rot_w mutate their receiver; any finite sequence of these operations on a dual quaternion with non-vanishing rotation part leaves the represented rigid transform unchanged and repeated reads return identical results.", "quantifier": "all dual quaternions, all operation sequences of any length", "why_tests_cant": "The claim is about every history of mutating calls.", "anchors": ["hand_eye_calibration/python/hand_eye_calibration/dual_quaternion.py:DualQuaternion.to_pose", "hand_eye_calibration/python/hand_eye_calibration/dual_quaternion.py:DualQuaternion.to_matrix", "hand_eye_calibration/python/hand_eye_calibration/dual_quaternion.py:DualQuaternion.normalize", "hand_eye_calibration/python/hand_eye_calibration/dual_quaternion.py:DualQuaternion.enforce_positive_q_rot_w"]}
{"id": "C17", "title": "Construction and normalize do not enforce the unit constraint", "statement": "The constructor's normalisation assertion never fires: every pair of quaternions is accepted, normalised or not. normalize() makes the rotation part unit but leaves rot.dual equal to rot.dual/|rot|^2, so is_normalized() can be False right after normalize(); is_normalized() holds iff ||rot|-1|<1e-8 and |rot.dual|/|rot|<1e-8.", "quantifier": "all finite dual quaternions", "why_tests_cant": "A negative statement over all inputs: no input makes the assertion fire.", "anchors": ["hand_eye_calibration/python/hand_eye_calibration/dual_quaternion.py:DualQuaternion.__init__", "hand_eye_calibration/python/hand_eye_calibration/dual_quaternion.py:DualQuaternion.assert_normalization", "hand_eye_calibration/python/hand_eye_calibration/dual_quaternion.py:DualQuaternion.is_normalized", "hand_eye_calibration/python/hand_eye_calibration/dual_quaternion.py:DualQuaternion.normalize"]}
{"id": "C18", "title": "Screw congruence", "statement": "If dual quaternions A, B satisfy A*X = X*B for some unit X then A and B have the same scalar part (both components); scalar() returns exactly (0,0,0,w; 0,0,0,w') and its self check cannot fail on finite values. This is what the inlier tests rely on.", "quantifier": "all unit A, X and B = X^-1 A X", "why_tests_cant": "The input is a continuum of real tuples; unit tests check a handful of literals to a tolerance.", "anchors": ["hand_eye_calibration/python/hand_eye_calibration/dual_quaternion.py:DualQuaternion.scalar", "hand_eye_calibration/python/hand_eye_calibration/dual_quaternion_hand_eye_calibration.py:compute_hand_eye_calibration"]}
{"id": "C19", "title": "Screw parameters", "statement": "For every unit dual quaternion screw_axis() returns rotation in [0,360) degrees; for rotation not ~0 the axis is the unit rotation axis and translation is the projection of the translation vector on that axis; for pure translations the axis is the unit translation direction (reversed if rot.w = -1) and translation its length; for the identity the axis is the zero vector. Rotation is invariant under A -> X^-1 A X, and so is translation for rotations above 1e-12 degrees and for pure translations.", "quantifier": "all unit dual quaternions", "why_tests_cant": "The repository has no test for screw_axis (TODO in test_dual_quaternion.py); The input is a continuum of real tuples; unit tests check a handful of literals to a tolerance.", "anchors": ["hand_eye_calibration/python/hand_eye_calibration/dual_quaternion.py:DualQuaternion.screw_axis"]}
{"id": "C20", "title": "Transformation matrix round trip", "statement": "For every unit dual quaternion with rot.w != 0, from_transformation_matrix(dq.to_matrix()) is dq or -dq (the one with rot.w > 0); for half turns it silently produces non-finite values.", "quantifier": "all unit dual quaternions", "why_tests_cant": "The input is a continuum of real tuples; unit tests check a handful of literals to a tolerance.", "anchors": ["hand_eye_calibration/python/hand_eye_calibration/dual_quaternion.py:DualQuaternion.from_transformation_matrix", "hand_eye_calibration/python/hand_eye_calibration/dual_quaternion.py:DualQuaternion.to_matrix"]}
{"id": "C21", "title": "Dual quaternion equality is a tolerance test, not an equivalence", "statement": "a == b iff every component differs by at most 1e-8 + 1e-5*|b_i|; an infinite component equals only the same infinity and NaN equals nothing; it is reflexive on finite values but neither symmetric nor transitive, and dq != -dq in general although both are the same pose.", "quantifier": "all dual quaternions over the extended reals with NaN", "why_tests_cant": "The input is a continuum of real tuples; unit tests check a handful of literals to a tolerance.", "anchors": ["hand_eye_calibration/python/hand_eye_calibration/dual_quaternion.py:DualQuaternion.__eq__"]}
{"id": "C22", "title": "Offset path generation", "statement": "compute_dual_quaternions_with_offset returns, for unit inputs, exactly B_W^-1 * B_H[i] * H_E for each i, in order, same length, and never raises.", "quantifier": "all path lengths, all unit dual quaternions", "why_tests_cant": "Any list length.", "anchors": ["hand_eye_calibration/python/hand_eye_calibration/dual_quaternion_hand_eye_calibration.py:compute_dual_quaternions_with_offset"]}
{"id": "C23", "title": "Path re-alignment", "statement": "align_paths_at_index(path, k) with 0<=k<len(path) and invertible entries returns a list of the same length that is path rotated to start at k, with every entry left-multiplied by path[k]^-1 and sign-flipped so that rot.w >= 0; the first entry is exactly the identity, relative transforms between entries are preserved up to sign, the inputs are not modified, the final assertion never fires; k >= len raises IndexError.", "quantifier": "all path lengths, all indices, all invertible dual quaternions", "why_tests_cant": "Any list length and index.", "anchors": ["hand_eye_calibration/python/hand_eye_calibration/dual_quaternion_hand_eye_calibration.py:align_paths_at_index"]}
{"id": "C24", "title": "S/T matrix kernel characterisation", "statement": "For unit motions A_i, B_i with A_i X = X B_i, the 6n x 8 matrix built by setup_t_matrix maps the stacked vector of X to 0; conversely if X.w != 0 and two of the motions have non-parallel rotation axes, its kernel is exactly span{(q,q'),(0,q)}. setup_s_matrix rejects pairs whose scalar parts differ by more than 5e-2 (+1e-5 relative) with AssertionError.", "quantifier": "all n, all unit motions, all X", "why_tests_cant": "Any number of poses; the kernel claim quantifies over all vectors.", "anchors": ["hand_eye_calibration/python/hand_eye_calibration/dual_quaternion_hand_eye_calibration.py:setup_s_matrix", "hand_eye_calibration/python/hand_eye_calibration/dual_quaternion_hand_eye_calibration.py:setup_t_matrix", "hand_eye_calibration/python/hand_eye_calibration/dual_quaternion_hand_eye_calibration.py:skew_from_vector"]}
{"id": "C25", "title": "Exact recovery of the hand-eye transform", "statement": "If the aligned pose pairs are noise-free images of a hand-eye transform X with X.w > 0, contain two motions with non-parallel rotation axes, and the SVD satisfies its contract, then compute_hand_eye_calibration returns exactly X whenever it does not raise its 'division by zero' assertion; that assertion can fire on perfect data (it depends on the basis the SVD picks for the null space).", "quantifier": "all path lengths, all X, all motions, every admissible SVD output", "why_tests_cant": "Quantifies over all trajectories, all transforms and all valid SVD null-space bases.", "anchors": ["hand_eye_calibration/python/hand_eye_calibration/dual_quaternion_hand_eye_calibration.py:compute_hand_eye_calibration"]}
{"id": "C26", "title": "Every returned calibration is a well-formed transform", "statement": "Whatever the (noisy) data, if compute_hand_eye_calibration returns, the rotation part has norm exactly 1, rot.w >= 0, and the result lies in the plane of the last two right singular vectors; if that plane contains a rigid motion (discriminant >= 0) the result is a rigid motion (rot.dual = 0). Otherwise (discriminant in [-1e-2,0), clipped) rot.dual is not 0, and it is bounded only relative to the leading coefficient a: with a small it can exceed 100, so a grossly non-rigid result can be returned without an error.", "quantifier": "all inputs, every admissible SVD output", "why_tests_cant": "Quantifies over all noisy inputs.", "anchors": ["hand_eye_calibration/python/hand_eye_calibration/dual_quaternion_hand_eye_calibration.py:compute_hand_eye_calibration"]}
{"id": "C27", "title": "Sign handling of pose pairs", "statement": "compute_hand_eye_calibration only modifies its second argument, and only by negating entries whose rotation scalar has strictly opposite sign to its partner; afterwards no pair has strictly opposite signs. Consequently negating any entry with non-zero scalar does not change the result. A pair with rotation scalar exactly 0 is not repaired: perfect data containing a half turn with inconsistent sign yields a matrix that the true transform does not annihilate.", "quantifier": "all lists of pose pairs", "why_tests_cant": "All lists and sign patterns.", "anchors": ["hand_eye_calibration/python/hand_eye_calibration/dual_quaternion_hand_eye_calibration.py:compute_hand_eye_calibration"]}
{"id": "C28", "title": "Scalar-part gate", "statement": "compute_hand_eye_calibration raises AssertionError unless both first poses are the identity (1e-8) and every pair's scalar parts agree within the given tolerance (plus 1e-5 relative); empty input raises IndexError.", "quantifier": "all lists, all tolerances", "why_tests_cant": "All lists.", "anchors": ["hand_eye_calibration/python/hand_eye_calibration/dual_quaternion_hand_eye_calibration.py:compute_hand_eye_calibration"]}
{"id": "C29", "title": "Prefiltering by screw axis", "statement": "prefilter_using_screw_axis returns an order-preserving sub-list of the input pairs (pairing intact, inputs untouched) such that no kept pair has a vanishing screw axis, any two kept pairs have axis dot products <= threshold on both sides, every dropped pair has a vanishing axis or exceeds the threshold against an earlier kept pair, and at least 2 pairs are kept (else AssertionError). Anti-parallel axes count as distinct.", "quantifier": "all list lengths, all thresholds, all arithmetic", "why_tests_cant": "A greedy in-place deletion loop over lists of any length.", "anchors": ["hand_eye_calibration/python/hand_eye_calibration/dual_quaternion_hand_eye_calibration.py:prefilter_using_screw_axis"]}
{"id": "C30", "title": "Pose error metric", "statement": "compute_pose_error(A,B) returns (Euclidean distance of positions, rotation angle in degrees in [0,180]); it is zero for equal poses (also with rescaled or negated quaternions), does not depend on quaternion scale, nor on quaternion sign unless the scalar part is 0, is symmetric outside the element-wise closeness shortcut, equals the geodesic angle 2*acos|qA.qB| outside that shortcut and is within 1e-4 rad of it always.", "quantifier": "all poses with non-degenerate quaternions", "why_tests_cant": "The input is a continuum of real tuples; unit tests check a handful of literals to a tolerance.", "anchors": ["hand_eye_calibration/python/hand_eye_calibration/dual_quaternion_hand_eye_calibration.py:compute_pose_error", "hand_eye_calibration/python/hand_eye_calibration/quaternion.py:angle_between_quaternions"]}
{"id": "C31", "title": "Alignment evaluation", "statement": "evaluate_alignment returns flags with flag i true iff both errors of pair i are strictly below the thresholds, and rmse equal to sqrt(mean(error^2)) for both components; rmse is 0 iff all errors are 0; if all pairs are inliers then both rmse are strictly below the thresholds; different lengths raise AssertionError.", "quantifier": "all list lengths, all poses, all thresholds", "why_tests_cant": "Any number of poses.", "anchors": ["hand_eye_calibration/python/hand_eye_calibration/dual_quaternion_hand_eye_calibration.py:evaluate_alignment"]}
{"id": "C32", "title": "Perfect calibration evaluates to zero error", "statement": "If the eye path is the image of the hand path under X, then get_aligned_poses(B_H aligned, W_E aligned, X) returns two equal pose lists (no relative half turns), so evaluate_alignment reports rmse (0,0) and every pair as inlier for positive thresholds.", "quantifier": "all paths, all X", "why_tests_cant": "Any path length and transform.", "anchors": ["hand_eye_calibration/python/hand_eye_calibration/dual_quaternion_hand_eye_calibration.py:get_aligned_poses", "hand_eye_calibration/python/hand_eye_calibration/dual_quaternion_hand_eye_calibration.py:evaluate_alignment"]}
{"id": "C33", "title": "Baseline: selection rule and crashes", "statement": "In non-exhaustive mode compute_hand_eye_calibration_BASELINE selects the first start index whose inlier count exceeds min_num_inliers and raises AssertionError if there is none; in exhaustive mode it never returns: it raises AssertionError if no index has enough inliers and NameError otherwise. In non-exhaustive mode it raises IndexError when the selected start index is not smaller than the inlier count. In both modes the caller's second list changes only by sign: if the lists have equal length, an entry is negated iff its scalar part and that of its partner have strictly opposite signs; otherwise nothing changes and AssertionError is raised.", "quantifier": "all inputs, all configurations, all arithmetic", "why_tests_cant": "Statement about all inputs: no input makes exhaustive mode return.", "anchors": ["hand_eye_calibration/python/hand_eye_calibration/dual_quaternion_hand_eye_calibration.py:compute_hand_eye_calibration_BASELINE"]}
{"id": "C34", "title": "RANSAC result invariant over every sampling history", "statement": "For every sequence of random samples: if compute_hand_eye_calibration_RANSAC returns success, then the returned transform and rmse were produced by the same evaluated sample, its inlier count is >= min_num_inliers, and no evaluated sample is strictly better in both rmse components; if it returns failure then the transform is None, rmse is (inf,inf) and no sample was accepted. The returned rmse need not be minimal in either component. Inputs of different lengths, or with no more poses than the sample size, are rejected with AssertionError.", "quantifier": "all sampling histories of any length, all inputs, all arithmetic", "why_tests_cant": "Quantifies over all random streams.", "anchors": ["hand_eye_calibration/python/hand_eye_calibration/dual_quaternion_hand_eye_calibration.py:compute_hand_eye_calibration_RANSAC"]}
{"id": "C35", "title": "RANSAC termination", "statement": "Exhaustive search always terminates after exactly C(n,k) samples, each k-subset visited once. Random mode counts only fully evaluated samples: it stops within max_number_iterations evaluated samples, but if every sample is rejected before evaluation it never terminates, whatever ransac_max_number_iterations is.", "quantifier": "all inputs, all random streams, all step counts", "why_tests_cant": "Non-termination cannot be observed by a test.", "anchors": ["hand_eye_calibration/python/hand_eye_calibration/dual_quaternion_hand_eye_calibration.py:compute_hand_eye_calibration_RANSAC"]}
{"id": "C36", "title": "RANSAC alignment index", "statement": "The poses are claimed to be re-aligned at 'the first sample pose'. Without prefiltering this holds. With prefiltering the sample index refers to the filtered list but is applied to the unfiltered list; if the path starts at the identity pose (as produced by the calling script) the pose used is never the sampled one.", "quantifier": "all inputs, all samples", "why_tests_cant": "All inputs and samples.", "anchors": ["hand_eye_calibration/python/hand_eye_calibration/dual_quaternion_hand_eye_calibration.py:compute_hand_eye_calibration_RANSAC", "hand_eye_calibration/python/hand_eye_calibration/dual_quaternion_hand_eye_calibration.py:prefilter_using_screw_axis"]}
{"id": "C37", "title": "RANSAC on perfect data", "statement": "On noise-free paths (every eye pose is a fixed base offset times the hand pose times the hand-eye transform, up to sign) without relative half turns and with two non-parallel rotation axes, and with an exact SVD, every fully evaluated sample yields exactly the true transform with rmse (0,0) and all poses as inliers, so success implies that the returned transform is exactly the true one (random or exhaustive, with or without prefilter). In rmse-threshold mode this needs each sample itself to contain two non-parallel axes and positive thresholds.", "quantifier": "all paths, all transforms, all sampling histories", "why_tests_cant": "All trajectories and random histories.", "anchors": ["hand_eye_calibration/python/hand_eye_calibration/dual_quaternion_hand_eye_calibration.py:compute_hand_eye_calibration_RANSAC"]}
{"id": "C38", "title": "RANSAC early abort", "statement": "Early abort happens exactly when the number of fully evaluated samples exceeds log(1-p)/log(1-w^s); an outlier probability of 0 or 1, or a success threshold of 1, raises instead; with the shipped defaults (p=0.99, outliers 0.5) the bound is between 6 and 7 for s=1 and between 34 and 35 for s=3 (so with the default sample size 3 it cannot fire within the default 20 iterations).", "quantifier": "all configurations, all histories", "why_tests_cant": "All configurations.", "anchors": ["hand_eye_calibration/python/hand_eye_calibration/dual_quaternion_hand_eye_calibration.py:compute_hand_eye_calibration_RANSAC", "hand_eye_calibration/python/hand_eye_calibration/algorithm_config.py:get_basic_config"]}
{"id": "C39", "title": "Time offset from signals", "statement": "If signal B is signal A delayed by k samples (zero elsewhere, A not identically zero), calculate_time_offset_from_signals returns exactly k*dt + tB[0] - tA[0]; in general it returns the smallest lag that maximises the cross correlation; adding constants to the time stamps shifts the result by exactly their difference. End to end, two equally spaced recordings of the same orientation path whose clocks differ by c give exactly c when filtered alike, unless all smoothed rates vanish, in which case the answer is off by all but one sample.", "quantifier": "all signals of any length, all lags", "why_tests_cant": "All signals and lags; needs Cauchy-Schwarz.", "anchors": ["hand_eye_calibration/python/hand_eye_calibration/time_alignment.py:calculate_time_offset_from_signals"]}
{"id": "C40", "title": "Quaternion resampling and the relative-tolerance defect", "statement": "resample_quaternions_from_samples returns one quaternion per sample for any sorted time stamps containing the sample, namely the slerp of the two neighbours at the proportional fraction, unless the sample is within 1e-5*|t| of the next stamp, in which case the next stamp's quaternion is returned unchanged. Therefore with time stamps whose absolute value exceeds 1e5 times the sampling gap (e.g. Unix time) no interpolation ever happens. Samples outside the range raise AssertionError.", "quantifier": "all time stamp lists, all samples", "why_tests_cant": "All lists; the defect depends on the magnitude of absolute time.", "anchors": ["hand_eye_calibration/python/hand_eye_calibration/time_alignment.py:resample_quaternions_from_samples", "hand_eye_calibration/python/hand_eye_calibration/quaternion.py:quaternions_interpolate"]}
{"id": "C41", "title": "compute_aligned_poses output contract", "statement": "For sorted inputs with unit quaternions, compute_aligned_poses never raises, returns two arrays of equal length with identical time stamps, each of which is a time stamp of the lower-rate input inside the common time interval that either coincides with, or has neighbours within 0.1s in, the higher-rate input; conversely every such stamp up to the second last high-rate stamp is used; positions are the linear interpolants. Hence two paths with identical stamps always lose their last one.", "quantifier": "all pose lists of any length, all offsets", "why_tests_cant": "All list lengths and offsets.", "anchors": ["hand_eye_calibration/python/hand_eye_calibration/time_alignment.py:compute_aligned_poses", "hand_eye_calibration/python/hand_eye_calibration/time_alignment.py:interpolate_poses_from_samples"]}
{"id": "C42", "title": "Mean time step and resampling grid", "statement": "The mean time step equals (last-first)/(n-1); resample_quaternions yields equally spaced samples that start at the first and end at the last time stamp; calculate_time_offset resamples with the larger of the two mean steps (the comment says smaller).", "quantifier": "all time stamp lists", "why_tests_cant": "Any length.", "anchors": ["hand_eye_calibration/python/hand_eye_calibration/time_alignment.py:calculate_time_offset", "hand_eye_calibration/python/hand_eye_calibration/time_alignment.py:resample_quaternions"]}
{"id": "C43", "title": "Angular velocity filtering is bounded and length preserving", "statement": "For at least two unit quaternions with strictly increasing sample times, compute_angular_velocity_norms returns len(quaternions)-1 non-negative values, each the length of the zero-padded moving average of the clipped angular velocities; clipping bounds every component by the magnitude of the chosen percentile, so no smoothed component exceeds the largest clipped magnitude; non-increasing time stamps raise AssertionError. The percentile is taken over signed components: when it is negative, clipping overwrites every component with it.", "quantifier": "all signals, all kernel sizes", "why_tests_cant": "Any length and kernel size.", "anchors": ["hand_eye_calibration/python/hand_eye_calibration/time_alignment.py:filter_and_smooth_angular_velocity", "hand_eye_calibration/python/hand_eye_calibration/time_alignment.py:compute_angular_velocity_norms"]}
{"id": "C44", "title": "CSV pose reader", "statement": "read_time_stamped_poses_from_csv_file returns as many poses as rows, times equal to the first column, positions unchanged, and quaternions scaled to unit length (four NaNs for a zero quaternion, no error; IndexError for an empty file). In JPL mode the returned quaternion list is the conjugate, but the returned pose array still contains the unconverted JPL quaternions, so compute_aligned_poses.py writes exactly the alignment of the unconverted data, i.e. JPL data although it promises Hamilton output.", "quantifier": "all numeric CSV contents", "why_tests_cant": "All files.", "anchors": ["hand_eye_calibration/python/hand_eye_calibration/csv_io.py:read_time_stamped_poses_from_csv_file", "hand_eye_calibration/bin/compute_aligned_poses.py:__main__"]}
{"id": "C45", "title": "CSV text round trip", "statement": "Writing an array of finite doubles with '%.18f' and ', ' separators and reading it back with the csv reader recovers every row and column. Each number is written as a decimal with exactly 18 decimals within 0.5e-18 of it, and the double read back is within 1e-18 of the original; it is the original itself when that is zero or at least 2^-7 in magnitude, but a smaller double can change, and can even become zero. An empty array reads back as empty.", "quantifier": "all arrays of finite numbers", "why_tests_cant": "All arrays; round-trip law.", "anchors": ["hand_eye_calibration/python/hand_eye_calibration/csv_io.py:write_double_numpy_array_to_csv_file", "hand_eye_calibration/python/hand_eye_calibration/csv_io.py:read_time_stamped_poses_from_csv_file", "hand_eye_calibration/python/hand_eye_calibration/bash_utils.py:readArrayFromCsv"]}
{"id": "C46", "title": "Calibration JSON round trip", "statement": "ExtrinsicCalibration.fromJson(writeJson(c)) has the same time offset and the same pose (rotation sign normalised to w >= 0), in both conventions provided the same switchConvention flag is used; mixing flags conjugates the rotation only. Reading a document with a missing key raises KeyError, one with an object instead of a number or a number instead of an object raises TypeError, and nothing else is raised.", "quantifier": "all calibrations with invertible rotation", "why_tests_cant": "All calibrations.", "anchors": ["hand_eye_calibration/python/hand_eye_calibration/extrinsic_calibration.py:ExtrinsicCalibration.writeJson", "hand_eye_calibration/python/hand_eye_calibration/extrinsic_calibration.py:ExtrinsicCalibration.fromJson"]}
{"id": "C47", "title": "Calibrations compose as a group", "statement": "ExtrinsicCalibration products add time offsets and compose poses; the product is associative, and the circle product of pairwise consistent calibrations 0->1->...->n->0 is the identity pose with zero time offset.", "quantifier": "all calibration chains of any length", "why_tests_cant": "Any chain length.", "anchors": ["hand_eye_calibration/python/hand_eye_calibration/extrinsic_calibration.py:ExtrinsicCalibration.__mul__", "hand_eye_calibration/scripts/close_the_circle_test.py:computeCircle"]}
{"id": "C48", "title": "Loop closure error", "statement": "compute_loop_error picks, for every number of sensors n >= 2, exactly the calibrations of pairs (0,1),(1,2),...,(n-2,n-1) and the inverse of (0,n-1) out of the list ordered as itertools.combinations; its length assertion never fires; for consistent calibrations T_i^-1 T_j the reported errors are (0,0).", "quantifier": "all n, all consistent calibration sets", "why_tests_cant": "Index arithmetic for every n.", "anchors": ["hand_eye_calibration/python/hand_eye_calibration/calibration_verification.py:compute_loop_error"]}
{"id": "C49", "title": "Calibration evaluation", "statement": "evaluate_calibration returns ((inf,inf),0) iff no poses match in time, otherwise rmse and an inlier count between 0 and the number of matched poses; for perfect data and the true calibration it returns (0,0) and all poses as inliers.", "quantifier": "all inputs", "why_tests_cant": "All pose lists.", "anchors": ["hand_eye_calibration/python/hand_eye_calibration/calibration_verification.py:evaluate_calibration"]}
{"id": "C50", "title": "Result CSV line contract", "statement": "get_header has as many columns as write_pose_pair_to_csv_line has fields and fields appear in header order; however the 'prefiltering' column is always False whatever the configuration, and collect_data_from_csv expects one more column ('dataset') than is written.", "quantifier": "all result entries", "why_tests_cant": "All entries; negative claim.", "anchors": ["hand_eye_calibration_experiments/python/hand_eye_calibration_experiments/experiment_results.py:ResultEntry", "hand_eye_calibration_experiments/python/hand_eye_calibration_experiments/experiment_plotting_tools.py:collect_data_from_csv"]}
{"id": "C51", "title": "Experiment driver survives failed calibrations", "statement": "In compute_set_of_hand_eye_calibrations, with optimisation enabled, one pair whose calibration fails (dq_H_E None) aborts the run with an exception; without optimisation the run aborts with an exception if the failed pair is one the loop error needs (consecutive sensors, or first and last), and otherwise goes on and reports success False in that pair's line. Failed estimations never abort: every pair still gets its line and the loop error stays -1. An iteration that returns appends exactly one line per pair, in pair order, naming its two data sets and reporting what that pair's calibration (or, with optimisation, the evaluation of its optimised calibration) returned, position error before orientation error; a complete run appends (8 + 8 * num_iterations) lines per pair.", "quantifier": "all sensor counts, configurations, success/failure patterns of calibrations and estimations", "why_tests_cant": "All failure patterns.", "anchors": ["hand_eye_calibration_experiments/bin/compute_set_of_hand_eye_calibrations.py:__main__", "hand_eye_calibration/python/hand_eye_calibration/calibration_verification.py:compute_loop_error"]}
{"id": "C52", "title": "Algorithm configurations", "statement": "get_all_configs yields 16 configurations with pairwise distinct names, each known to the plotting tool with pairwise distinct short names; names encode the flags; exhaustive configurations always prefilter; scalar-part configurations use sample size 1; all other settings are the same everywhere; only the experiment with a spoiled initial guess runs the optimization alone, with the settings of the exhaustive search with scalar-part inliers.", "quantifier": "all shipped configurations", "why_tests_cant": "Finite, but tests in the repository do not cover it.", "anchors": ["hand_eye_calibration/python/hand_eye_calibration/algorithm_config.py:get_basic_config", "hand_eye_calibration_experiments/python/hand_eye_calibration_experiments/all_algorithm_configs.py:get_all_configs", "hand_eye_calibration_experiments/python/hand_eye_calibration_experiments/experiment_plotting_tools.py:collect_data_from_csv"]}
{"id": "C53", "title": "Result aggregation", "statement": "collect_data_from_csv keeps exactly the successful rows with good singular values, in file order, grouped per method and per (dataset, method), with nothing lost or duplicated; an unknown method name raises KeyError even for failed rows.", "quantifier": "all row lists", "why_tests_cant": "Any number of rows.", "anchors": ["hand_eye_calibration_experiments/python/hand_eye_calibration_experiments/experiment_plotting_tools.py:collect_data_from_csv"]}
{"id": "C54", "title": "Result file header and crash safety", "statement": "Across any sequence of completed runs that starts without a result file, the file contains the header exactly once, as first line, followed by every line of every run. Whatever crashes happen, runs only append, and what a run appends is the beginning of its own lines. A run killed between creating the file and flushing the header leaves an empty file, and later runs never write the header. A run killed between opening the two output files of a pair leaves the first without the second; no later history repairs this and no run that reaches that pair completes. As long as every run completes, the consistency assertions never fail.", "quantifier": "all run histories, results, buffer flushes, exceptions and kill points", "why_tests_cant": "All crash points and histories.", "anchors": ["hand_eye_calibration_experiments/bin/compute_set_of_hand_eye_calibrations.py:__main__", "hand_eye_calibration_experiments/bin/optimization_experiments.py:__main__"]}
{"id": "C55", "title": "Incremental pipeline crash safety (close_the_circle)", "statement": "requiresUpdate(inputs, outputs) is true iff no output exists or some existing input is strictly newer than some existing output. A run of the script that completes leaves no step outdated and every step with at least one output (with all outputs, if before the run all or none of them existed), and running it again executes nothing. If a step is killed after writing some but not all of its outputs, no later run repairs it, however often the script is started; later steps that need the missing file fail every time. For every pair calibrated by the script, after a completed run no aligned, pose, guess or calibration file is older than the files it is computed from, and the pose, guess and calibration files exist. Two inputs in different directories with the same file name share their intermediate files.", "quantifier": "all file states, all crash points, all later runs", "why_tests_cant": "All crash points and histories.", "anchors": ["hand_eye_calibration/scripts/close_the_circle_test.py:requiresUpdate", "hand_eye_calibration/scripts/close_the_circle_test.py:calibrateTwo"]}
{"id": "C56", "title": "tf export", "statement": "write_transformation_to_csv_file writes one row per transform on /tf whose child frame is the source frame and whose lookup succeeds, in bag order, with that stamp, including repeated stamps (which the comment says are dropped). The reported count is the number of such transforms from the first successful lookup on, so failed lookups after it are counted. It raises exactly if, after some successful lookup or at the end, at least four transforms are counted and the first and latest successful lookups have the same stamp, and then always ZeroDivisionError, with the rows up to there written.", "quantifier": "all message histories", "why_tests_cant": "All message histories.", "anchors": ["hand_eye_calibration/bin/tf_to_csv.py:write_transformation_to_csv_file"]}
{"id": "C57", "title": "Bag export file names", "statement": "bag_to_csv_with_config issues one export per tf frame pair and then one per camera, bag by bag, with those frames and files; the first bag whose lists differ in length stops it with AssertionError after the commands of the bags before it (and its own tf exports, if only the cameras differ). A tf export is written to <stem>_<target>_<source>.csv and a camera export to <stem>_W_<topic without its first character, slashes replaced by underscores>.csv, <stem> being the bag name up to its first dot. Names depend only on the bag name up to its first dot; the first character of a topic is ignored and slashes equal underscores; frame names without underscores and topics without underscores do not collide within a bag, others can.", "quantifier": "all configurations", "why_tests_cant": "All configurations.", "anchors": ["hand_eye_calibration/bin/bag_to_csv_with_config.py:__main__"]}
{"id": "C58", "title": "Data-drop tool", "statement": "introduce_data_drops never drops more than the requested number of points nor the last point; if it returns, the remaining data is the original minus exactly the requested number of dropped points, in order, or the original with those entries None; the default configuration always raises AssertionError; numbers of points that are not integers never succeed; a request to drop all points never returns; every request for fewer points with at least one point per drop can succeed, and never raises.", "quantifier": "all data lists, all random histories", "why_tests_cant": "All random streams.", "anchors": ["hand_eye_calibration/python/hand_eye_calibration/test_tools.py:introduce_data_drops"]}
{"id": "C59", "title": "Synthetic path helper", "statement": "generate_test_paths with paths_start_at_origin=False always raises UnboundLocalError, and with no samples IndexError; with True and no noise or outliers it returns two paths of n_samples rigid motions starting at the identity that satisfy the hand-eye equation for dq_H_E exactly, the hand path being the helix relative to its first sample. For all draws of noise and outliers generate_test_path returns n_samples rigid motions with non-negative scalar part; the orientation noise never changes the rotation angle of a sample. Without noise, a sample chosen as an outlier has x in [-11,0], y in [-9,9] and z in [-5.5,0] (never positive x or z), every other sample stays on the helix with positive x and z.", "quantifier": "all n, all transforms", "why_tests_cant": "All transforms; negative claim.", "anchors": ["hand_eye_calibration/python/hand_eye_calibration/hand_eye_test_helpers.py:generate_test_paths", "hand_eye_calibration/python/hand_eye_calibration/hand_eye_test_helpers.py:generate_test_path"]}
{"id": "C60", "title": "Shell helpers", "statement": "run() raises iff the command exits non-zero (never in dry-run, where the command is not started); create_path succeeds when the directory exists or can be created; on any OSError it raises NameError because errno is not imported, in particular for bare file names.", "quantifier": "all commands, all paths", "why_tests_cant": "All environments.", "anchors": ["hand_eye_calibration/python/hand_eye_calibration/bash_utils.py:run", "hand_eye_calibration/python/hand_eye_calibration/bash_utils.py:create_path"]}
{"id": "C61", "title": "Spoiled initial guess stays in its requested range", "statement": "spoil_initial_guess turns the guess by exactly the drawn angle about the drawn axis, moves it by exactly the drawn vector and shifts the time offset by the drawn signed amount, with magnitudes inside the requested ranges, for every draw with an angle of at least 1e-4; rotations so small that the two orientations are element-wise close (always below 2e-12) count as angle 0, and with a positive lower angle bound it raises AssertionError then. A drawn direction or axis of length zero raises AssertionError.", "quantifier": "all draws, all ranges within [0, pi]", "why_tests_cant": "All random draws.", "anchors": ["hand_eye_calibration_experiments/bin/optimization_experiments.py:spoil_initial_guess", "hand_eye_calibration/python/hand_eye_calibration/quaternion.py:Quaternion.get_random"]}
{"id": "C62", "title": "The perturbation sweep reports every experiment once", "statement": "optimization_experiments.py with plot type angle_translation_complete runs 120 * num_iterations experiments (12 angle ranges of 15 degrees, 10 translation ranges of 10 cm). If it ends without an exception, the result file gets one line per experiment and pair of pose files, in the order of the nested loops whatever the worker processes do; each line reports the pair, the experiment's iteration, an angle offset inside the experiment's angle range, a translation offset whose length lies inside the experiment's translation range, and whether the optimization of that pair succeeded; the estimator gets the absolute-measurement flags of that pair. A run either writes all lines or none: one failed initial calibration (or any exception in a worker) ends the run without a line. It completes whenever all calibrations succeed, the drawn angles are not too small, and the estimator fails or writes a readable calibration that can be evaluated. Experiments and pairs never share a calibration file, though the iteration number in the name is always num_iterations - 1.", "quantifier": "all pose sets and flags, all numbers of iterations, all numbers of worker processes and all schedules, all random draws, all answers of the calibration and the estimator", "why_tests_cant": "Schedules of a process pool, random draws and external programs cannot be enumerated.", "anchors": ["hand_eye_calibration_experiments/bin/optimization_experiments.py:compute_initial_guess_for_all_pairs", "hand_eye_calibration_experiments/bin/optimization_experiments.py:run_optimization_experiment", "hand_eye_calibration_experiments/bin/optimization_experiments.py:__main__"]}
{"id": "C63", "title": "Random streams of the worker processes coincide", "statement": "The forked workers of the sweep start from copies of the same numpy generator: any two experiments that are the r-th task of two different workers report, for each pair of files, translation offsets in the same direction, and identical translation offsets if they have the same translation range; so the 'random' trials of a sweep are not independent. With 2 iterations, when eight workers each start with their own chunk of 8 tasks, experiments 0 and 40, 8 and 48, 16 and 56 report identical translation offsets.", "quantifier": "all schedules, all states of the random generators", "why_tests_cant": "Depends on the schedule of the pool and on the generator state; every run looks random.", "anchors": ["hand_eye_calibration_experiments/bin/optimization_experiments.py:__main__", "hand_eye_calibration_experiments/bin/optimization_experiments.py:spoil_initial_guess"]}
{"id": "C64", "title": "Concurrent creation of the result directory", "statement": "When processes call create_path concurrently for a directory at any depth, each call ends after at most 2*depth+1 system calls, and when all have ended the directory exists and at least one call has returned normally. No call raises if the directory exists beforehand or if the calls do not overlap. Otherwise exactly one of the calls that found the directory missing returns and all others of them raise NameError (the guard for the race uses the unimported errno): for every number n of processes there is an interleaving in which n-1 raise.", "quantifier": "all depths, all numbers of processes, all interleavings of their system calls", "why_tests_cant": "Race: depends on the interleaving.", "anchors": ["hand_eye_calibration/python/hand_eye_calibration/bash_utils.py:create_path", "hand_eye_calibration_experiments/bin/optimization_experiments.py:run_optimization_experiment"]}
{"id": "C65", "title": "The RANSAC calibration succeeds on noise-free data", "statement": "For two paths that are an exact hand-eye experiment (unit transform with positive scalar part, no half turn between two poses, motions about two non-parallel axes), the RANSAC and exhaustive-search calibration ends, succeeds, and reports exactly the true transform, zero error and all poses as inliers, provided the configuration is usable (non-negative tolerances, positive thresholds, sample size at least one and smaller than the path, enough poses left by the prefilter, at least one iteration, abort probabilities strictly inside (0,1)) and the singular value decompositions it computes are exact and do not hit the one degenerate case the code cannot handle (the two halves of the seventh vector orthogonal). The shipped RANSAC and exhaustive-search configurations are usable for paths of at least ten poses with three left by the prefilter.", "quantifier": "all exact paths of any length, all configurations, all random draws, all exact decompositions", "why_tests_cant": "Ranges over all paths, all configurations, all random draws and all choices of basis made by the decomposition.", "anchors": ["hand_eye_calibration/python/hand_eye_calibration/dual_quaternion_hand_eye_calibration.py:compute_hand_eye_calibration_RANSAC", "hand_eye_calibration/python/hand_eye_calibration/algorithm_config.py"]}
{"id": "C66", "title": "The calibration program and its files", "statement": "compute_hand_eye_calibration.py raises AssertionError and touches nothing unless exactly one file is named for each path and a time offset file accompanies the JSON output. It changes no file but the requested outputs, and these only after a successful calibration; a run that asks for an output and ends without an exception has calibrated and written all it was asked for: the extrinsics as seven lines of one number each, and a JSON file that holds the pose of the estimate and reads back with the first number of the time offset file as its delay. A missing file of poses, or one with a line of fewer than eight numbers or with lines of different lengths, ends the program with an exception before anything is written; a missing time offset file does so only after the extrinsics have been written. A failed calibration (always the case for fewer than ten pairs of poses) is not reported as such: with an output requested the program dies with an exception and writes nothing, without one it exits normally. Only the rigid transforms matter: passing the inverse transforms through the alternative flags, rescaling or negating quaternions, other time stamps or plotting give the same files (if no pose is half a turn from the first). On noise-free data the files contain exactly the true transform. --visualize is on for every text except the empty one.", "quantifier": "all file contents and flags, all numbers of poses, all decompositions", "why_tests_cant": "Ranges over all flag combinations, file contents, path lengths and results of the decomposition.", "anchors": ["hand_eye_calibration/bin/compute_hand_eye_calibration.py:__main__", "hand_eye_calibration/python/hand_eye_calibration/csv_io.py:write_double_numpy_array_to_csv_file"]}
{"id": "C67", "title": "The calibration script and its files", "statement": "compute_complete_handeye_calibration.sh touches at most five files: aligned_<name> next to each of the two datasets, and time_offset.csv, calibration.json and calibration_optimized.json in the current directory; different datasets have different aligned files. The datasets survive unless one is called like one of those three files or like the aligned file of the other, in which case it is replaced by the aligned poses of the other. Its exit status is that of the batch estimator alone, which gets the datasets and the calibration.json present at that moment. If alignment and calibration succeed, calibration.json holds the calibration of the aligned datasets, the first as the hand and the second as the eye, with their time offset. Failures of the two programs are not noticed: if the alignment fails, the aligned files and time offset of an earlier run are calibrated, and if the calibration fails, an older calibration.json is the initial guess; both can end with status 0 and a calibration_optimized.json that has nothing to do with the datasets.", "quantifier": "all dataset names and contents, all file systems, all decompositions and estimators", "why_tests_cant": "Ranges over all file names, all states left behind by earlier runs and all ways the three programs can fail.", "anchors": ["hand_eye_calibration/scripts/compute_complete_handeye_calibration.sh"]}
{"id": "C68", "title": "From two recordings to the initial guess", "statement": "For two datasets that are noise-free recordings of a hand-eye experiment (same sample times up to a constant difference of the clocks, unit transform with positive scalar part, no half turn between two poses, motions about two non-parallel axes, at least eleven samples), whose time offset is estimated correctly and for which the calibration uses exact decompositions, the script reports no error in alignment and calibration, writes exactly the true transform and the true time offset to calibration.json, and starts the batch estimator with the unchanged datasets and this document.", "quantifier": "all recordings of any length, all time stamps, all file names, all exact decompositions, all estimators", "why_tests_cant": "Ranges over all motions, lengths, time stamps and names; a test can only try some recordings.", "anchors": ["hand_eye_calibration/scripts/compute_complete_handeye_calibration.sh", "hand_eye_calibration/bin/compute_aligned_poses.py:__main__", "hand_eye_calibration/bin/compute_hand_eye_calibration.py:__main__"]}
{"id": "C69", "title": "Recordings shorter than the smoothing kernel", "statement": "For two equally spaced recordings that are not longer than about half the smoothing kernels (14 samples with the default settings) calculate_time_offset does not look at when the motions happen: if the sums of the clipped rotation rates of both recordings are non-zero, it returns the difference of the first time stamps (of the last ones if the first recording is longer); if one of the sums is zero, it returns the offset that makes the second recording begin at the end of the first. In particular a copy of a recording that is delayed by two samples gets offset zero.", "quantifier": "all orientation paths of up to the given length, all start times and steps, all kernels and percentiles", "why_tests_cant": "Ranges over all motions, lengths, kernels and percentiles.", "anchors": ["hand_eye_calibration/python/hand_eye_calibration/time_alignment.py:calculate_time_offset", "hand_eye_calibration/python/hand_eye_calibration/time_alignment.py:compute_angular_velocity_norms"]}
{"id": "C70", "title": "Quaternions in double precision", "statement": "Computed in IEEE double precision: if the computed norm of a quaternion is finite and above 1e-8, normalize() and the csv reader (both quaternion formats) return a finite quaternion that differs from the exact unit quaternion of the same direction by at most 3e-15 per component, its computed norm differs from 1 by at most 1e-13, and it passes the unit test of slerp and lerp. Two quaternions that pass the test and a fraction between 0 and 1 are always accepted. For finite stamps t_left <= t <= t_right with t_left < t_right whose difference does not overflow, the computed fraction lies between 0 and 1, so interpolation never raises, at any number of times. Finite quaternions with components around 1e200 are not normalised: the norm overflows, the result is zero and slerp raises AssertionError.", "quantifier": "all double precision quaternions, stamps and fractions, all implementations of the elementary functions", "why_tests_cant": "Ranges over all bit patterns; rounding errors cannot be sampled exhaustively.", "anchors": ["hand_eye_calibration/python/hand_eye_calibration/quaternion.py:Quaternion.normalize", "hand_eye_calibration/python/hand_eye_calibration/quaternion.py:quaternion_slerp", "hand_eye_calibration/python/hand_eye_calibration/quaternion.py:quaternions_interpolate", "hand_eye_calibration/python/hand_eye_calibration/csv_io.py:read_time_stamped_poses_from_csv_file"]}
{"id": "C71", "title": "Time alignment in double precision never raises", "statement": "Computed in IEEE double precision, with any elementary functions: for two files whose quaternions have a finite computed norm above 1e-8, whose stamps are at most 1e10 s and at least 0.2 ms apart, and which both last at least three mean steps of either, compute_aligned_poses.py does not raise, in both quaternion formats; the offset is finite and the two results have the same number of rows with identical stamps. The parts: resampling at times within a recording with sorted stamps never raises; the equally spaced grid stays within the recording, is within 12 microseconds of the exact grid and its points are at least 25 microseconds apart; aligning by any finite offset never raises and every stamp of the result is a stamp of the second recording or a shifted stamp of the first. If the resampled first recording has only two samples, the offset is nan.", "quantifier": "all recordings of any length in double precision, all elementary functions, kernel sizes and percentiles", "why_tests_cant": "Assertions on fractions, ranges and increasing samples depend on rounding in every step, for every stamp and every length.", "anchors": ["hand_eye_calibration/python/hand_eye_calibration/time_alignment.py:resample_quaternions_from_samples", "hand_eye_calibration/python/hand_eye_calibration/time_alignment.py:resample_quaternions", "hand_eye_calibration/python/hand_eye_calibration/time_alignment.py:calculate_time_offset", "hand_eye_calibration/python/hand_eye_calibration/time_alignment.py:compute_aligned_poses", "hand_eye_calibration/bin/compute_aligned_poses.py:__main__"]}
{"id": "C72", "title": "Frame alignment and frame changes of trajectories never raise in double precision and are accurate", "statement": "Computed in IEEE double precision: if the pose at the alignment index has finite coordinates at most 1e6 from the origin and a quaternion with a finite computed norm above 1e-8, align_paths_at_index on the dual quaternions of any list of poses does not raise; it returns as many poses, the first is the identity up to 6e-15 (rotation) and 7e-15 times the distance (dual part), and every usable pose becomes, up to sign and 4e-14 times the distances involved, the exact pose relative to the aligned one, with non-negative w. compute_dual_quaternions_with_offset on usable poses never raises and returns the exact products up to 8e-14 times the distances, normalised. scalar() raises exactly if one of the six imaginary components is not finite. A pose 7e7 from the origin makes align_paths_at_index raise.", "quantifier": "all lists of poses, all alignment indices, all double precision values, all elementary functions", "why_tests_cant": "The assertions compare rounded products with tolerances of 1e-8; whether they hold depends on every rounding and on the size of the coordinates.", "anchors": ["hand_eye_calibration/python/hand_eye_calibration/dual_quaternion_hand_eye_calibration.py:align_paths_at_index", "hand_eye_calibration/python/hand_eye_calibration/dual_quaternion_hand_eye_calibration.py:compute_dual_quaternions_with_offset", "hand_eye_calibration/python/hand_eye_calibration/dual_quaternion.py:DualQuaternion.scalar", "hand_eye_calibration/python/hand_eye_calibration/dual_quaternion.py:DualQuaternion.inverse"]}
{"id": "C73", "title": "Poses survive dual quaternions in double precision", "statement": "Computed in IEEE double precision, for poses with finite coordinates up to 1e24 and quaternions with a finite computed norm above 1e-8: from_pose_vector followed by to_pose returns the position up to the relative error 6e-14 and the normalised quaternion up to 2e-14, with non-negative w; the product of two such dual quaternions is the composed rigid motion with a position error of at most 1.1e-13 times the sum of the distances and a quaternion error of at most 4e-14; passive_transform_point maps a point to its exact image with the same error.", "quantifier": "all poses and points in double precision, all elementary functions", "why_tests_cant": "Accuracy for every pair of poses and every magnitude cannot be sampled.", "anchors": ["hand_eye_calibration/python/hand_eye_calibration/dual_quaternion.py:DualQuaternion.from_pose_vector", "hand_eye_calibration/python/hand_eye_calibration/dual_quaternion.py:DualQuaternion.to_pose", "hand_eye_calibration/python/hand_eye_calibration/dual_quaternion.py:DualQuaternion.__mul__", "hand_eye_calibration/python/hand_eye_calibration/dual_quaternion.py:DualQuaternion.passive_transform_point"]}
{"id": "C74", "title": "Meaning of the bad singular values flag", "statement": "The singular values returned by compute_hand_eye_calibration are those of the stacked 6n x 8 matrix, and the returned flag is true iff one of the first six is below 0.5 or a later one is above 0.5. On noise-free motions the last two are zero and the flag is true iff the sixth is below 0.5. If noise-free motions are not flagged, the estimate is well conditioned: every 8-vector orthogonal to the solution plane has a sum of squared residuals of at least a quarter of its squared length. Exact motions that are small (the squares of their imaginary components sum to less than 1.5) are always flagged although the transform is right, and repeating the same motions often enough always clears the flag. A successful calibration by either method reports the singular values of one such decomposition together with their flag; a failed one reports no singular values.", "quantifier": "all inputs and all arithmetic for the rule; all noise-free motions, transforms and singular value decompositions for the rest", "why_tests_cant": "Statements about every motion sequence and every decomposition, including how the flag depends on the number and size of the motions.", "anchors": ["hand_eye_calibration/python/hand_eye_calibration/dual_quaternion_hand_eye_calibration.py:compute_hand_eye_calibration"]}
{"id": "C75", "title": "Files of the batch estimator", "statement": "The batch estimator reads the number files that the Python programs read: for a file that they accept, made of numbers, commas and newlines, it either adds exactly one measurement per row (an outlier marker for rows without a pose, otherwise time, quaternion, conjugated unless JPL is selected, and position) or aborts. It aborts on a missing file, on an empty line and on a quaternion whose length differs from 1 by more than its tolerance, and accepts all rows within 99/10^10 of length 1, in particular unit quaternions rounded to nine decimals and everything the Python programs write with such quaternions. The Python programs do not have this limit, because alignment gives the same result when quaternions are rescaled; so a file with four decimals is aligned by them and aborts the estimator, and then the shell script fails and leaves the optimized calibration file as it was. The poses the estimator writes are those of the times start, start + delta, ... up to the end, and can be read back.", "quantifier": "all file texts, rows, conventions, times, steps and pose functions; every length check with the stated tolerance", "why_tests_cant": "Agreement of two readers on every text, and acceptance for every quaternion within a bound, are statements about infinitely many files.", "anchors": ["hand_eye_calibration_batch_estimation/src/batch_estimator.cc", "hand_eye_calibration/python/hand_eye_calibration/csv_io.py:read_time_stamped_poses_from_csv_file", "hand_eye_calibration/scripts/compute_complete_handeye_calibration.sh"]}
{"id": "C76", "title": "Arguments passed to the target extractor", "statement": "target_extractor_interface.py passes the bag, the topic, the camera file, the output file (as the time stamped output; the sequenced output gets the prefix sequenced_ in front of the whole path) and the five entries of the target file to the flags meant for them, whatever characters they contain, without header and in metres. It ends with OSError if the target file cannot be opened, NameError after a YAML syntax error, TypeError if the document is not a mapping, KeyError iff one of the five entries is missing, and otherwise calls the extractor; an entry that is not a number of the right type ends the extractor. The minimal share of inliers is never passed: it is always 0.4, although the configuration of the script says 0.", "quantifier": "all command lines, target files and readers of numbers", "why_tests_cant": "Every text for every argument, including those that look like options.", "anchors": ["hand_eye_calibration/bin/target_extractor_interface.py:call_target_extractor", "hand_eye_calibration_target_extractor/src/target_extractor.cc:main"]}
{"id": "C77", "title": "Effect of the target extractor on files", "statement": "Taking a call through a null pointer to end the program: whatever the arguments, the bag and the detections are, the extractor never writes a pose, since the camera it evaluates is a null pointer. If its flags are invalid, the bag cannot be opened or a message is not a usable image, no file is touched. If it ends with status 0, no file is touched either. On a usable bag and with a camera file, the script empties both pose files and the reprojection log, changes no other file, and still succeeds.", "quantifier": "all arguments, bags, files, cameras, detectors, pose estimators and arithmetic", "why_tests_cant": "A statement about every bag and every detector; a test runs the program on one recording.", "anchors": ["hand_eye_calibration_target_extractor/src/target_extractor.cc:main", "hand_eye_calibration/bin/target_extractor_interface.py:call_target_extractor"]}
{"id": "C78", "title": "Poses exported by the loop over the images", "statement": "Given a camera, the loop of the target extractor writes one row per image in which the target is found, a pose is found and the share of inliers is above the threshold, in the order of the images: the sequenced file with the number of the image counted over all images, the time stamped file with the time of that image, both with the same poses, the files in millimetres with positions times 1000 and the same quaternions. The exported quaternion describes the rotation found and its scalar part is not negative.", "quantifier": "all sequences of images, cameras, pose estimators, thresholds and arithmetic; real numbers for the rotation", "why_tests_cant": "Which images fail is arbitrary; the pairing of rows with images must hold for every pattern of failures.", "anchors": ["hand_eye_calibration_target_extractor/src/target_extractor.cc:main"]}
{"id": "C79", "title": "Figures of the plotting program", "statement": "generate_plots.py shows one box plot per dataset, in the order of first occurrence, with the errors of every method in that dataset, then the run times of all datasets, then the two maps of the mean loop errors over angle and time perturbations. Only rows of successful runs without bad singular values count, and each of them is shown exactly where its dataset and method say. If a dataset lacks a method that occurs elsewhere, the program ends with KeyError after the box plots before it; with more than seven datasets with IndexError before the run times; with no row left with ZeroDivisionError and no figure. Given real arithmetic, the maps appear iff each of the 64 bins of 15 degrees by 0.03 s holds exactly 60 rows and every row falls into a bin; then every entry is the mean of the errors of its bin. Otherwise - in particular if one row is not perturbed, or by 120 degrees, 0.24 s or 0.1 m or more, or the number of rows is not 3840 - the program ends with AssertionError after the run times.", "quantifier": "all lists of result files that can be read, with any values; every arithmetic for the box plots and run times, real numbers for the maps", "why_tests_cant": "Which rows are missing or failed is arbitrary; a test fixes one table.", "anchors": ["hand_eye_calibration_experiments/bin/generate_plots.py:generate_box_plot", "hand_eye_calibration_experiments/bin/generate_plots.py:generate_time_plot", "hand_eye_calibration_experiments/bin/generate_plots.py:generate_optimization_circle_error_plot"]}
{"id": "C80", "title": "Reported errors determine the calibration", "statement": "For arbitrary, noisy pairs of unit poses and any two candidate calibrations x and x' whose rotations are unit quaternions (whatever their dual parts), the errors reported by evaluating the aligned poses bound how far x and x' are apart. Let N be the square root of the number of pairs, rho half the sum of N times the two reported orientation errors in radians plus 2e-4 rad, and P the sum of the reported position errors times N. If two of the eye's motions since the first pose have scalar parts larger than rho/2 in absolute value, and c is the length of the cross product of their vector parts, then c times the distance by which the two rotations move a vector apart is at most 2 rho times its length, and c squared times the distance of the two translations is at most c (P + 2 rho |t'|) + rho (|t_m| + |t_n|). Errors are reported for every unit candidate and every non-empty data. The restriction to motions that are not nearly half turns is needed: with half turns about two axes in a plane, two calibrations half a turn apart are both reported with errors exactly 0.", "quantifier": "all non-empty lists of pairs of unit dual quaternions, consistent or not, all pairs of candidates with unit rotation, all pairs of motions in the list; real arithmetic", "why_tests_cant": "It relates the errors of all candidate calibrations of all data sets, including noisy ones; a test compares finitely many candidates on one data set.", "anchors": ["hand_eye_calibration/python/hand_eye_calibration/dual_quaternion_hand_eye_calibration.py:get_aligned_poses", "hand_eye_calibration/python/hand_eye_calibration/dual_quaternion_hand_eye_calibration.py:evaluate_alignment", "hand_eye_calibration/python/hand_eye_calibration/dual_quaternion_hand_eye_calibration.py:compute_pose_error"]}
{"id": "C81", "title": "Three-dimensional view of the trajectories", "statement": "plot_poses draws each of up to five trajectories as one line through its positions in order, in its own colour, with one marker per pose and, if asked, three arrows per pose; the limits of the axes are the smallest and the largest coordinate of all positions, and the arrows are the axes of the pose, a twentieth of the diagonal of the bounding box long. Six or more trajectories end with AssertionError, none or an empty one with ValueError. The view after a calibration shows every n-th hand position and every n-th eye position taken through the calibration; for unit poses it never fails unless n is 0, when it ends with ValueError and the calibration already computed is lost. For noise-free data and the true calibration both lines coincide.", "quantifier": "all lists of trajectories of any length and values, every arithmetic for the drawing and real numbers for the limits and the arrows; all pairs of unit poses, calibrations and steps n, also negative", "why_tests_cant": "Number, length and contents of the trajectories are arbitrary, and the figure is not returned by the function.", "anchors": ["hand_eye_calibration/python/hand_eye_calibration/hand_eye_calibration_plotting_tools.py:compute_bbox_3D", "hand_eye_calibration/python/hand_eye_calibration/hand_eye_calibration_plotting_tools.py:plot_poses", "hand_eye_calibration/python/hand_eye_calibration/dual_quaternion_hand_eye_calibration.py:compute_hand_eye_calibration_RANSAC", "hand_eye_calibration/python/hand_eye_calibration/dual_quaternion_hand_eye_calibration.py:compute_hand_eye_calibration_BASELINE"]}
{"id": "C82", "title": "Figure of the time alignment", "statement": "Asking for the figure does not change the time offset and adds no failure, provided each signal has as many samples as times (otherwise ValueError). The figure shows both signals unchanged, over their own clocks before and with the offset added to the first clock after the alignment, with the earliest time of each panel at 0; between them the cross correlation over every lag, of which the first highest point gives the offset. If the second signal is the first delayed by whole samples of the same clock rate, the two curves after the alignment coincide at every sample both have.", "quantifier": "all pairs of signals and times of any length; every arithmetic for what is drawn, real numbers for the panels and the overlay", "why_tests_cant": "Signals and lags are arbitrary, and the figure is not returned by the function.", "anchors": ["hand_eye_calibration/python/hand_eye_calibration/time_alignment.py:calculate_time_offset_from_signals", "hand_eye_calibration/python/hand_eye_calibration/time_alignment_plotting_tools.py:plot_results"]}
{"id": "C83", "title": "RANSAC does not raise on real data", "statement": "For arbitrary pairs of poses with unit rotations (any noise, any outliers, dual parts that are no rigid motions) compute_hand_eye_calibration_RANSAC raises no exception, provided the tolerances and thresholds are real numbers (thresholds positive, probabilities strictly between 0 and 1), the sample size is at least 1 (2 with rmse_threshold) and smaller than the number of poses and, for random sampling, not larger than the number of poses the prefilter leaves. The decomposition may fail at any time. Success means that at least one sample was evaluated; the transform then has a unit rotation, the errors are nonnegative numbers and at least one and at least the demanded number of poses are inliers; without success there is no transform, no inlier, and both errors are infinite. The exhaustive search always returns; the shipped RANSAC configurations meet the conditions for four or more poses. If the prefilter leaves fewer poses than a sample needs, random sampling ends with ValueError, while the exhaustive search reports failure.", "quantifier": "all lists of pairs of poses with unit rotations, all configurations as described, all sequences of samples, all behaviours of the decomposition that return real numbers or fail; real arithmetic (the too-few case: every arithmetic)", "why_tests_cant": "The absence of exceptions concerns every data set, every random sequence and every behaviour of the decomposition routine.", "anchors": ["hand_eye_calibration/python/hand_eye_calibration/dual_quaternion_hand_eye_calibration.py:compute_hand_eye_calibration_RANSAC", "hand_eye_calibration/python/hand_eye_calibration/dual_quaternion_hand_eye_calibration.py:compute_hand_eye_calibration", "hand_eye_calibration/python/hand_eye_calibration/dual_quaternion_hand_eye_calibration.py:evaluate_alignment", "hand_eye_calibration/python/hand_eye_calibration/dual_quaternion_hand_eye_calibration.py:get_aligned_poses"]}
{"id": "C84", "title": "RANSAC and outliers", "statement": "Let some pairs be genuine (noise-free for a calibration x, without half turns, with non-parallel axes) and the others arbitrary unit poses. If a sample consists of genuine pairs, the pose at which the paths are aligned is genuine and the classification recognises all other pairs as outliers from there, the sample is evaluated, its transform is exactly x and its inliers are exactly the genuine pairs, for both classification methods. With the errors measured on the inliers only, both errors are then 0, and once such a sample has been seen the search succeeds with an error 0; if every other evaluated sample has the same transform or two positive errors, the result is x, also for the exhaustive search. The number of inliers plays no role in the selection: a first sample with one error equal to 0 is the result whatever comes later, however few inliers it has.", "quantifier": "all lists of genuine and other pairs in any order, all samples and sequences of samples, both classification methods with and without refinement; decompositions as specified in C25; real arithmetic", "why_tests_cant": "Number, position and kind of the outliers and the random samples are arbitrary.", "anchors": ["hand_eye_calibration/python/hand_eye_calibration/dual_quaternion_hand_eye_calibration.py:compute_hand_eye_calibration_RANSAC", "hand_eye_calibration/python/hand_eye_calibration/dual_quaternion_hand_eye_calibration.py:compute_hand_eye_calibration", "hand_eye_calibration/python/hand_eye_calibration/algorithm_config.py:get_RANSAC_classic_config"]}
{"id": "C85", "title": "What the baseline calibration does on arbitrary data", "statement": "On arbitrary pairs of poses with unit rotations the non-exhaustive compute_hand_eye_calibration_BASELINE has exactly these outcomes. If there are no poses it ends with UnboundLocalError. Otherwise it takes the first of the remaining poses from which more than the demanded number of poses agree in their scalar parts; if there is none it ends with AssertionError. If the position of that pose among the remaining ones is not smaller than the number of agreeing poses it ends with IndexError; otherwise it returns a result: either a success with a transform of unit rotation and nonnegative errors, or a failure. No other exception can end it; IndexError needs at least two poses more than the demanded number of inliers. If genuine pairs (noise-free for a calibration x) are mixed with others, the first pose with enough agreeing poses is a genuine one, comes early enough, and none of the others agrees with it, the result is exactly x, with the genuine pairs as inliers and, measured on the inliers, errors 0.", "quantifier": "all lists of pairs of poses with unit rotations, all configurations with real tolerances and thresholds, all behaviours of the decomposition that return real numbers or fail; real arithmetic (the failure of the prefilter: every arithmetic)", "why_tests_cant": "The decision table concerns every data set; the IndexError needs a particular order of good and bad poses.", "anchors": ["hand_eye_calibration/python/hand_eye_calibration/dual_quaternion_hand_eye_calibration.py:compute_hand_eye_calibration_BASELINE", "hand_eye_calibration/python/hand_eye_calibration/dual_quaternion_hand_eye_calibration.py:compute_hand_eye_calibration", "hand_eye_calibration/python/hand_eye_calibration/dual_quaternion_hand_eye_calibration.py:align_paths_at_index"]}
{"id": "C86", "title": "Accuracy of a calibration from noisy poses", "statement": "If every measured motion is within (a, d) for the hand and (b, e) for the eye (metres, quaternion distance) of motions that fit together through a true calibration x, then x itself would be reported with a position error of at most a + b + 2e|t_x| and an orientation error of at most 4 asin((d+e)/2), and whatever compute_hand_eye_calibration_RANSAC or compute_hand_eye_calibration_BASELINE returns as a success is close to x: for any two motions it was measured on, with c the sine of the angle between their rotation vectors scaled by the half-angle sines, the rotations differ by at most 2 rho / c and the translations by at most the bound given in terms of a, b, d, e and the two errors it reports. So the reported errors and the known accuracy of the sensors certify the calibration.", "quantifier": "all lists of pairs of poses with unit rotations, all noise bounds, all calibrations, all random draws, all decompositions that return real numbers; real arithmetic", "why_tests_cant": "A bound over every noise pattern and every random choice; a test samples one noise vector.", "anchors": ["hand_eye_calibration/python/hand_eye_calibration/dual_quaternion_hand_eye_calibration.py:compute_hand_eye_calibration_RANSAC", "hand_eye_calibration/python/hand_eye_calibration/dual_quaternion_hand_eye_calibration.py:evaluate_alignment", "hand_eye_calibration/python/hand_eye_calibration/dual_quaternion_hand_eye_calibration.py:get_aligned_poses", "hand_eye_calibration/python/hand_eye_calibration/dual_quaternion_hand_eye_calibration.py:compute_hand_eye_calibration_BASELINE"]}
{"id": "C87", "title": "Time offset from noisy signals", "statement": "If the two signals given to calculate_time_offset_from_signals are clean signals plus noise, the lag it chooses correlates the clean signals best up to twice the disturbance (the product of the strengths, i.e. root sums of squares, of signals and noises). If the second clean signal is the first one delayed by k samples and scaled by a positive gain, and the self-correlation falls off from its peak by more than twice the disturbance, the offset is exactly the one of the clean signals. For every clean signal that is not zero there is a positive noise bound per sample below which the offset is exact.", "quantifier": "all signals of any length, all noises, all lags and gains; real arithmetic", "why_tests_cant": "All noise patterns; needs Cauchy-Schwarz.", "anchors": ["hand_eye_calibration/python/hand_eye_calibration/time_alignment.py:calculate_time_offset_from_signals"]}
{"id": "C88", "title": "From noisy recordings of a moving rig to the calibration", "statement": "If two recordings of rigidly attached sensors are accurate to (n, m) (metres, quaternion distance up to sign), the sensors move with at most V and W per second and consecutive stamps are at most g apart (or at least 0.2 s, a dropout), then compute_aligned_poses succeeds and every pose it returns is within n + V g/2 and 3m + 2 W g of the true pose at its stamp; the poses of one of the two recordings are not changed at all. A time offset wrong by s adds V s and W s to the accuracies. If these poses are then expressed from the first one, as the calibration program does, every success of compute_hand_eye_calibration_RANSAC is as close to the true calibration as C86 says, with errors of the motions computed from n, m, V, W, g and the extent of the path.", "quantifier": "all motions with bounded speed, all recordings of them of any length within the noise bounds, all time offsets, all random draws, all decompositions that return real numbers; real arithmetic", "why_tests_cant": "Ranges over all continuous motions and all noise patterns.", "anchors": ["hand_eye_calibration/python/hand_eye_calibration/time_alignment.py:compute_aligned_poses", "hand_eye_calibration/python/hand_eye_calibration/time_alignment.py:interpolate_poses_from_samples", "hand_eye_calibration/python/hand_eye_calibration/dual_quaternion_hand_eye_calibration.py:compute_hand_eye_calibration_RANSAC"]}
{"id": "C89", "title": "Time offset between two different sensors on one rig", "statement": "Two rigidly attached sensors have the same rotation rates up to the fixed rotation between their reference frames, however they are mounted. For equally spaced recordings with clocks apart by c calculate_time_offset returns exactly c if no rate exceeds the clipping limits on either side, or if the reference frames are parallel and the settings equal; with clipping and noise it is still exact if the self-correlation of the true signal falls off by more than a bound in terms of the per-component errors. But the clipping limit is a percentile of signed components: a sensor that only ever turns forwards about the z axis of its reference frame (less than a half turn per sample) has all its rates clipped to zero for every percentile from 50 to 100, and the answer is then nA - 2 samples short of c, whatever the other sensor recorded. The same happens if no two consecutive orientations differ by more than about half a degree, for example at 100 samples per second and 50 degrees per second. With that offset at most two aligned poses are left.", "quantifier": "all orientation sequences without exact half turns between samples, all mountings and reference frames, all clock differences, kernel sizes and percentiles; real arithmetic", "why_tests_cant": "All motions and mountings; the failure needs a one-way rotation, which no test data contain.", "anchors": ["hand_eye_calibration/python/hand_eye_calibration/time_alignment.py:calculate_time_offset", "hand_eye_calibration/python/hand_eye_calibration/time_alignment.py:filter_and_smooth_angular_velocity", "hand_eye_calibration/python/hand_eye_calibration/time_alignment.py:compute_angular_velocity_norms"]}
{"id": "C90", "title": "Windows of the time alignment and of the evaluation", "statement": "With plotting switched on, calculate_time_offset, compute_aligned_poses and evaluate_alignment return or raise exactly what they return or raise without. A successful calculate_time_offset shows four windows in this order: the rates of the first sensor before and after smoothing, those of the second, the input data (all given and all resampled orientations, one curve per component, and the norms of the smoothed rates), and the time alignment figure with the same norms and their correlation. The panels titled as unfiltered and as filtered norms always show the same curve, the filtered one. A failing call has shown nothing, or only the rates of the first sensor. compute_aligned_poses shows one window with all components of the poses it returns, and evaluate_alignment one window with the position and orientation error of every pair and the two reported errors as horizontal lines; neither shows anything when it fails.", "quantifier": "all recordings, configurations, pose lists and time offsets, valid or not; every arithmetic (reals, doubles, or any other)", "why_tests_cant": "Plotting is switched off in every test, and the equality of the two panels and of the results must hold for every input.", "anchors": ["hand_eye_calibration/python/hand_eye_calibration/time_alignment.py:calculate_time_offset", "hand_eye_calibration/python/hand_eye_calibration/time_alignment.py:compute_angular_velocity_norms", "hand_eye_calibration/python/hand_eye_calibration/time_alignment.py:filter_and_smooth_angular_velocity", "hand_eye_calibration/python/hand_eye_calibration/time_alignment.py:compute_aligned_poses", "hand_eye_calibration/python/hand_eye_calibration/time_alignment_plotting_tools.py:plot_input_data", "hand_eye_calibration/python/hand_eye_calibration/time_alignment_plotting_tools.py:plot_angular_velocities", "hand_eye_calibration/python/hand_eye_calibration/time_alignment_plotting_tools.py:plot_time_stamped_poses", "hand_eye_calibration/python/hand_eye_calibration/dual_quaternion_hand_eye_calibration.py:evaluate_alignment", "hand_eye_calibration/python/hand_eye_calibration/hand_eye_calibration_plotting_tools.py:plot_alignment_errors"]}
{"id": "C91", "title": "The choice of the reference frames does not matter", "statement": "The pose files of the hand and of the eye may each be expressed in any fixed reference frame, each pose with either sign of its quaternion: if no pose is half a turn from the first one, the calibration program writes the same files and ends the same way. Without the prefilter, compute_hand_eye_calibration_RANSAC and compute_hand_eye_calibration_BASELINE called directly give the same result in all frames if no two poses of a path are half a turn apart. With the prefilter, the functions called directly do depend on the frame: with the shipped exhaustive configuration there is a path that fails in one frame and is calibrated in another.", "quantifier": "all pose lists of rigid motions, all changes of the two frames, all signs, all configurations, all random draws, every singular value decomposition", "why_tests_cant": "The frames, poses and draws range over infinite sets, and equality of all results and files must hold for each.", "anchors": ["hand_eye_calibration/bin/compute_hand_eye_calibration.py:__main__", "hand_eye_calibration/python/hand_eye_calibration/dual_quaternion_hand_eye_calibration.py:compute_hand_eye_calibration_RANSAC", "hand_eye_calibration/python/hand_eye_calibration/dual_quaternion_hand_eye_calibration.py:compute_hand_eye_calibration_BASELINE", "hand_eye_calibration/python/hand_eye_calibration/dual_quaternion_hand_eye_calibration.py:align_paths_at_index", "hand_eye_calibration/python/hand_eye_calibration/dual_quaternion_hand_eye_calibration.py:prefilter_using_screw_axis"]}
{"id": "C92", "title": "Searching longer never hurts", "statement": "With the same random numbers, compute_hand_eye_calibration_RANSAC with more iterations, or with early abort switched off, returns either exactly the same result or a success with both errors smaller. The exhaustive search returns a result which no sample of the sample size, taken in increasing order, beats in both errors; it succeeds if any such sample has finite errors; and no random search over such samples beats it or succeeds where it fails. For sample size 1 these are all samples. This holds for doubles too.", "quantifier": "all pose lists, configurations, random draws, numbers of iterations and singular value decompositions; every arithmetic with a strict order, in particular doubles with NaN", "why_tests_cant": "A test compares two particular runs; the comparison must hold for all draws, all numbers of iterations and all inputs.", "anchors": ["hand_eye_calibration/python/hand_eye_calibration/dual_quaternion_hand_eye_calibration.py:compute_hand_eye_calibration_RANSAC"]}
{"id": "C93", "title": "What happens when the clocks start somewhere else", "statement": "Adding the same constant to all time stamps of both recordings shifts the stamps of compute_aligned_poses by that constant and changes none of the positions. If the stamps are so far from zero that consecutive ones differ by at most 1e-5 of their value (as with Unix time and at least one sample in some hours), no orientation is interpolated: each is the next recorded one, and a further shift changes nothing but the stamps. So the orientations do depend on the origin of the clocks: a recording of a constant rotation is interpolated exactly when its clock starts at zero, and gets the orientation of the next sample for every shift of 100000 s or more.", "quantifier": "all pairs of recordings with sorted stamps and unit orientations, all shifts; real arithmetic", "why_tests_cant": "The shift ranges over all reals and the recordings over all lists; test data have one clock.", "anchors": ["hand_eye_calibration/python/hand_eye_calibration/time_alignment.py:compute_aligned_poses", "hand_eye_calibration/python/hand_eye_calibration/time_alignment.py:interpolate_poses_from_samples", "hand_eye_calibration/python/hand_eye_calibration/time_alignment.py:resample_quaternions_from_samples"]}
{"id": "C94", "title": "The complete script on noisy recordings", "statement": "Let two datasets be recordings of sensors rigidly attached to each other by x, with known accuracies, speeds and gaps and a true clock offset. If compute_complete_handeye_calibration.sh runs through, calibration.json holds the time offset found (the one of time_offset.csv) and a unit quaternion with non-negative w and a translation whose distances from those of x are bounded, for any two of the aligned poses in the files aligned_*.csv, by an expression in the accuracies, the speeds times the error of the time offset, and the two errors that the calibration reported.", "quantifier": "all datasets, paths, accuracies, gaps, offsets, all singular value decompositions that return real numbers, all estimators, every initial file system; real arithmetic", "why_tests_cant": "A bound over all noise, motions and offsets through the whole pipeline.", "anchors": ["hand_eye_calibration/scripts/compute_complete_handeye_calibration.sh:__main__", "hand_eye_calibration/bin/compute_aligned_poses.py:__main__", "hand_eye_calibration/bin/compute_hand_eye_calibration.py:__main__", "hand_eye_calibration/python/hand_eye_calibration/time_alignment.py:compute_aligned_poses", "hand_eye_calibration/python/hand_eye_calibration/dual_quaternion_hand_eye_calibration.py:compute_hand_eye_calibration_RANSAC"]}
{"id": "C95", "title": "What noise does to the calibration", "statement": "compute_hand_eye_calibration on noisy motions: let every hand and eye motion be within given distances of motions that fit together through x, be no half turn and no longer than T. Let dl be the square root of the number of pairs times the noise, divided by the sixth singular value that is returned (or by one half, if the result is returned without the warning about bad singular values). If dl is small, the returned calibration is a rigid transform that is either within a multiple of dl of x, or has a translation of at least 1/(5 dl) metres. If the noise is below the tolerances, the only way to get no result is that the two halves of the seventh singular vector have dot product exactly 0. The second outcome cannot be excluded: for every positive noise level there are recordings, calibrated without a warning, whose result is half a turn off with a translation of at least 2 divided by the noise, while another equally valid singular value decomposition of the same matrix gives x exactly.", "quantifier": "all true calibrations, all lists of noisy motions, all noise levels, all exact singular value decompositions; real arithmetic", "why_tests_cant": "A bound over all noise and all decompositions; the bad outcome needs a particular basis of the null plane that a test would not hit.", "anchors": ["hand_eye_calibration/python/hand_eye_calibration/dual_quaternion_hand_eye_calibration.py:compute_hand_eye_calibration", "hand_eye_calibration/python/hand_eye_calibration/dual_quaternion_hand_eye_calibration.py:setup_t_matrix"]}
{"id": "C96", "title": "The time offset with noisy orientations", "statement": "Orientation noise of size dl changes each rotation rate by at most (pi dl + 0.0045)/step, as long as consecutive orientations are not within the noise of a half turn. If two sensors on one body, however mounted and in whatever frames, are recorded with such noise, and the squared signal strength minus its correlation at every other lag exceeds an explicit bound in the two noise levels and the amounts by which the percentile filter clips, then calculate_time_offset returns exactly the true clock offset. For any two recordings that give the same non-zero signal without noise, with no step exactly a half turn or exactly at the limit below which a step counts as no rotation, there is a positive noise level below which every recording of the same orientations gives exactly that offset.", "quantifier": "all regularly sampled orientation histories of any length, all mountings and frames, all noise within the level, all kernel sizes and percentiles; real arithmetic", "why_tests_cant": "It ranges over all noise realisations and all motions; a test draws one.", "anchors": ["hand_eye_calibration/python/hand_eye_calibration/time_alignment.py:calculate_time_offset", "hand_eye_calibration/python/hand_eye_calibration/time_alignment.py:compute_angular_velocity_norms", "hand_eye_calibration/python/hand_eye_calibration/time_alignment.py:filter_and_smooth_angular_velocity", "hand_eye_calibration/python/hand_eye_calibration/quaternion.py:angular_velocity_between_quaternions", "hand_eye_calibration/python/hand_eye_calibration/time_alignment.py:calculate_time_offset_from_signals"]}
{"id": "C97", "title": "Order of the motions, implementation of the SVD and exchange of the sensors", "statement": "If the three smallest singular values of a call of compute_hand_eye_calibration are distinct and one root of the quadratic equation is strictly better than the other, then the result (calibration, singular values, warning or exception) does not depend on the order of the motions after the first, on the signs of their dual quaternions (half turns excepted) or on which exact implementation of the singular value decomposition is used. Exchanging hand and eye then gives the same singular values and warning and the inverse calibration, so that the two results undo each other on points, provided the scalar parts of all pairs differ by at most the tolerance and at most 1/20. The acceptance test itself is not symmetric: np.allclose is relative to its second argument, and there is a pair of motions that is accepted in one order and raises AssertionError in the other.", "quantifier": "all lists of motions, noisy or not, of any length; all orders and signs; all pairs of exact singular value decompositions; all tolerances; real arithmetic", "why_tests_cant": "The number of orders and of valid decompositions is unbounded; a test runs one implementation on a few orders.", "anchors": ["hand_eye_calibration/python/hand_eye_calibration/dual_quaternion_hand_eye_calibration.py:compute_hand_eye_calibration", "hand_eye_calibration/python/hand_eye_calibration/dual_quaternion_hand_eye_calibration.py:setup_t_matrix"]}
{"id": "C98", "title": "Exchanging the two recordings negates the time offset", "statement": "Called with the two signals (or the two regularly sampled recordings, with the filter settings) exchanged, the time offset is the negated one exactly if the correlation has a single best lag. With several best lags the call uses the first one, hence in the exchanged call the last one, and the two offsets add up to minus their distance in seconds. For two recordings that turn by at most half a degree between samples every lag is a best lag: the two offsets then differ by the whole length of both recordings, whatever the motion.", "quantifier": "all signals and all regularly sampled orientation histories of any lengths, all kernel sizes and percentiles; real arithmetic", "why_tests_cant": "Whether ties occur depends on the data; a symmetry law over all pairs of recordings.", "anchors": ["hand_eye_calibration/python/hand_eye_calibration/time_alignment.py:calculate_time_offset", "hand_eye_calibration/python/hand_eye_calibration/time_alignment.py:calculate_time_offset_from_signals"]}
{"id": "C99", "title": "Which CSV files are read, and as what", "statement": "The csv reader of the Python programs returns exactly the cells of every line, for Unix and Windows line ends in any mixture and with or without a line end after the last line. A cell made of blanks, an optional sign, digits with or without a decimal point, an optional exponent and blanks is read as the double nearest to the written number. A file of equally long lines of such cells is therefore read as the table of the nearest doubles, whatever the line ends, blanks, plus signs, leading zeros, exponents and numbers of digits are. Lines with different numbers of cells, a blank line among other lines, and an empty cell, as from a comma at the end of a line, raise ValueError. No other text made of digits, points, signs, the letter e and white space is read as a number: it raises ValueError.", "quantifier": "all tables of cells without commas, quotation marks and line ends, all choices of line ends, all decimal texts", "why_tests_cant": "It ranges over all texts of a format; a test reads a few files.", "anchors": ["hand_eye_calibration/python/hand_eye_calibration/csv_io.py:read_time_stamped_poses_from_csv_file", "hand_eye_calibration/python/hand_eye_calibration/bash_utils.py:readArrayFromCsv"]}
{"id": "C100", "title": "The time offset in double precision", "statement": "Computed in double precision, calculate_time_offset_from_signals returns a finite offset that belongs to a lag whose correlation is the best one up to twice an explicit rounding bound (about the length of the shorter correlation times 2^-51 times the strengths of the signals), and the offset differs from the exact offset of this lag by at most an explicit bound of rounding size. If the best lag is better than all others by more than twice the rounding bound, the lag is the one of exact arithmetic. Without this margin rounding can choose another lag: there are signals whose exact offset is 1 s and whose computed offset is 0.", "quantifier": "all signals of up to 4e14 doubles of size up to 1e10, all time stamps of size up to 1e10 s with a spacing of at least 25 microseconds; IEEE 754 binary64 with round to nearest even", "why_tests_cant": "All double inputs of any length; a test compares a few recordings with a reference.", "anchors": ["hand_eye_calibration/python/hand_eye_calibration/time_alignment.py:calculate_time_offset_from_signals"]}
{"id": "C101", "title": "The unit of time and the scale of the signals", "statement": "If all time stamps of both recordings are multiplied by a positive factor, the time offset is multiplied by this factor; the scale of the two signals does not matter. The aligned poses, however, depend on the unit: the distances of 0.1 within which compute_aligned_poses accepts a pose are absolute, so that the same recordings written in half seconds instead of seconds can have no aligned pose.", "quantifier": "all signals and all regularly sampled orientation histories, all positive factors; real arithmetic", "why_tests_cant": "A scaling law over all recordings and factors.", "anchors": ["hand_eye_calibration/python/hand_eye_calibration/time_alignment.py:calculate_time_offset_from_signals", "hand_eye_calibration/python/hand_eye_calibration/time_alignment.py:calculate_time_offset", "hand_eye_calibration/python/hand_eye_calibration/time_alignment.py:compute_aligned_poses"]}
{"id": "C102", "title": "The unit of length", "statement": "Positions may be given in any unit of length: on noise-free motions the calibration, if one is returned in the new unit, is the same motion in that unit; compute_aligned_poses gives the same poses in the new unit or the same exception, for all recordings, even with infinite coordinates or nan; evaluate_alignment with the position threshold in the new unit gives the position error in the new unit and the same orientation error and inliers. On noisy motions the unit matters: the tolerance for the dual scalar parts is an absolute length, so that as soon as these parts of one pair differ by more than 1e-5 of their size the calibration raises AssertionError in every sufficiently small unit, for every tolerance.", "quantifier": "all positive factors, all lists of motions of any length, all recordings, all exact singular value decompositions; real arithmetic", "why_tests_cant": "A scaling law over all factors and data.", "anchors": ["hand_eye_calibration/python/hand_eye_calibration/dual_quaternion_hand_eye_calibration.py:compute_hand_eye_calibration", "hand_eye_calibration/python/hand_eye_calibration/dual_quaternion_hand_eye_calibration.py:evaluate_alignment", "hand_eye_calibration/python/hand_eye_calibration/time_alignment.py:compute_aligned_poses"]}
{"id": "C103", "title": "Running the programs again", "statement": "What compute_aligned_poses.py and compute_hand_eye_calibration.py write and how they end depends only on their options and on the contents of the files they read, not on other files or on earlier outputs; compute_aligned_poses.py writes nothing when it raises. If no input file is also an output file, running either program a second time ends in the same way and leaves every file as it is. The same holds for the complete script, unless one recording is named like an output file or like the aligned file of the other.", "quantifier": "all options, all file contents, all recordings and names, every arithmetic, every singular value decomposition and every behaviour of the estimator program that is a function of its input", "why_tests_cant": "It compares two runs on all file systems that agree on the inputs.", "anchors": ["hand_eye_calibration/bin/compute_aligned_poses.py:__main__", "hand_eye_calibration/bin/compute_hand_eye_calibration.py:__main__", "hand_eye_calibration/scripts/compute_complete_handeye_calibration.sh"]}
{"id": "C104", "title": "Numbers in extracted and exported pose files", "statement": "A number written with P significant digits, with or without an exponent, is read by the Python programs as the double nearest to the number rounded to P digits, and a table of such numbers as the table of these doubles. The target extractor writes 17 digits: every file of poses with any finite doubles is read back exactly. The tf export uses str(): with Python 3 its files are read back exactly as well; with Python 2 they have twelve digits, the relative error is at most 1e-11 and the order is kept, but a time stamp in seconds since 1970 is rounded to hundredths of a second, so that all stamps less than 5 ms from the same hundredth become equal. The batch estimator reads the same doubles: it adds exactly the poses that the target extractor has written, those of a Python 2 tf export with twelve digits, and refuses neither file when the quaternions have length 1 within 9.8e-9.", "quantifier": "all finite doubles, tables of any size, all numbers of digits", "why_tests_cant": "Exactness for all 2^64 doubles and tables of any size.", "anchors": ["hand_eye_calibration_target_extractor/src/target_extractor.cc", "hand_eye_calibration/bin/tf_to_csv.py:write_transformation_to_csv_file", "hand_eye_calibration/python/hand_eye_calibration/csv_io.py:read_time_stamped_poses_from_csv_file", "hand_eye_calibration_batch_estimation/src/batch_estimator.cc"]}
{"id": "C105", "title": "The decompositions the calibration needs exist, and which one is taken matters", "statement": "Every matrix with eight columns has a singular value decomposition as the calibration assumes it, so the theorems about exact decompositions apply to every input. For all noise-free motions about two axes the last two singular vectors are not determined: with one exact decomposition compute_hand_eye_calibration returns exactly the true transform, with another exact decomposition of the same matrix it raises AssertionError. For every usable noise-free data set there is an exact decomposition with which the complete RANSAC search succeeds and returns exactly the true transform with zero error.", "quantifier": "all real matrices with eight columns, all noise-free motions with two different axes, all draws", "why_tests_cant": "It quantifies over all decompositions a linear algebra library may return; a test sees the one of its own library.", "anchors": ["hand_eye_calibration/python/hand_eye_calibration/dual_quaternion_hand_eye_calibration.py:compute_hand_eye_calibration", "hand_eye_calibration/python/hand_eye_calibration/dual_quaternion_hand_eye_calibration.py:compute_hand_eye_calibration_RANSAC"]}
{"id": "C106", "title": "Which recordings the complete script calibrates", "statement": "The complete script always ends. For equally spaced noise-free recordings of one rig (at least eleven poses, no half turns between poses, two rotation axes at least 37 degrees apart, every motion from the first pose either no rotation at all or a noticeable one, arbitrary reference frames), whose smoothed rates are distinct enough that clipping cannot move the correlation maximum or are not clipped at all, there is an exact SVD with which the script writes exactly the true transform and the true time offset to calibration.json. With fewer than ten aligned poses the calibration step always fails and calibration.json stays as it was. This is always the case for a hand that turns less than about half a degree per sample and for a turntable that never turns back, because the offset written to time_offset.csv is then the true one minus (n-2) sample steps.", "quantifier": "all recordings of the given kind, all file systems, all paths, all SVD and estimator behaviours", "why_tests_cant": "It ranges over all trajectories, frames, offsets and decompositions and connects the three programs of the script; a test runs single recordings with one library.", "anchors": ["hand_eye_calibration/scripts/compute_complete_handeye_calibration.sh", "hand_eye_calibration/bin/compute_aligned_poses.py:__main__", "hand_eye_calibration/bin/compute_hand_eye_calibration.py:__main__", "hand_eye_calibration/python/hand_eye_calibration/time_alignment.py:calculate_time_offset", "hand_eye_calibration/python/hand_eye_calibration/dual_quaternion_hand_eye_calibration.py:compute_hand_eye_calibration_RANSAC"]}
{"id": "C107", "title": "What the time alignment does with any two recordings", "statement": "For every pair of recordings whose time stamps do not decrease, the numbers of poses, the durations and the larger one of the two mean steps alone decide what compute_aligned_poses.py does. Without poses, with a single pose, when no time passes, or when one recording is shorter than that step it ends with IndexError or ValueError (stated which) and writes nothing. When only the recording of the hand is shorter than two such steps it ends normally but writes nan as the offset and empty pose files, and the next step of the script fails and leaves calibration.json as it was. In all other cases it ends normally with a finite offset that lies between (first eye stamp - last hand stamp) and (first eye stamp - first hand stamp + 1.5 eye durations), and with equally stamped poses.", "quantifier": "all pairs of recordings of real numbers with non-decreasing time stamps, of any length", "why_tests_cant": "It is a complete case distinction over all lengths, spacings and trajectories; tests cover single points of it.", "anchors": ["hand_eye_calibration/python/hand_eye_calibration/time_alignment.py:calculate_time_offset", "hand_eye_calibration/python/hand_eye_calibration/time_alignment.py:resample_quaternions", "hand_eye_calibration/python/hand_eye_calibration/time_alignment.py:compute_aligned_poses", "hand_eye_calibration/bin/compute_aligned_poses.py:__main__", "hand_eye_calibration/scripts/compute_complete_handeye_calibration.sh"]}
{"id": "C108", "title": "Accuracy of the pose errors in double precision", "statement": "In IEEE double arithmetic with an arccosine accurate to 1e-15 that returns nan outside [-1,1], compute_pose_error of two poses with finite positions below 1e24 m and orientations of norm above 1e-8 returns a position error within 5e-15 (relative, plus 4e-18) of the true distance, and an orientation error within 1e-4 degrees of the true angle - or 0 when the true angle is at most 1/500 degree, or nan when it is at most 1e-4 degree. nan really occurs for nearly equal orientations whose product rounds above 1. evaluate_alignment never raises on equally long lists of any doubles (infinities and nan included), flags a pair as an inlier only if its true errors are below the limits up to those tolerances (and as an outlier only if one true error reaches its limit up to them, or the angle is at most 1e-4 degree), and one nan pair makes the rmse nan, so that a RANSAC sample with it never replaces the best one.", "quantifier": "all pairs of poses with double components of the stated size, all libms with such an arccosine; all lists of doubles for the totality", "why_tests_cant": "It bounds rounding errors over all doubles; the inputs on which the arccosine leaves its domain are rare and look like any other.", "anchors": ["hand_eye_calibration/python/hand_eye_calibration/dual_quaternion_hand_eye_calibration.py:compute_pose_error", "hand_eye_calibration/python/hand_eye_calibration/dual_quaternion_hand_eye_calibration.py:evaluate_alignment", "hand_eye_calibration/python/hand_eye_calibration/dual_quaternion_hand_eye_calibration.py:compute_hand_eye_calibration_RANSAC", "hand_eye_calibration/python/hand_eye_calibration/quaternion.py:angle_between_quaternions"]}
{"id": "C109", "title": "Screw axes and the prefilter in double precision", "statement": "In IEEE double arithmetic with a sine and arccosine accurate to 1e-15: for a motion that turns by at least 0.002 rad (and stays that far from full turns), whose rotation is computed up to 1e-13, the screw axis is within 3e-7 in each component of the exact unit axis and never taken for a vanishing one, and the number compared with the threshold is within 1e-5 of the cosine of the angle between the exact axes. prefilter_using_screw_axis therefore keeps exactly the pairs it keeps in exact arithmetic whenever no such cosine is within 1e-5 of the threshold. The first aligned pair, which is the identity and is always dropped in exact arithmetic, is dropped when the scalar part of its rotations is computed as 1 or more; when it is computed as 1 - 2^-53, which happens for ordinary poses, it can be kept with an axis of rounding noise.", "quantifier": "all lists of pairs of dual quaternions with double components, all finite thresholds, all libms of the stated accuracy", "why_tests_cant": "It bounds rounding errors over all doubles and compares the decisions of the filter with those of exact arithmetic for lists of any length.", "anchors": ["hand_eye_calibration/python/hand_eye_calibration/dual_quaternion.py:screw_axis", "hand_eye_calibration/python/hand_eye_calibration/dual_quaternion_hand_eye_calibration.py:prefilter_using_screw_axis", "hand_eye_calibration/python/hand_eye_calibration/dual_quaternion_hand_eye_calibration.py:align_paths_at_index"]}
{"id": "C110", "title": "Infinities, nan and overflow in the CSV files", "statement": "A cell of a CSV file is read exactly if it is, between white space, a decimal number or one of the words inf, infinity and nan in any mixture of cases, with an optional sign; anything else, like lines of unequal length, raises ValueError. Words give the infinity of that sign or nan. A decimal number whose magnitude is 2^1024 - 2^970 or more gives the infinity of its sign, any other the nearest double. From Python 3.6 on single underscores between digits are passed over, before that they raise. Every array of doubles with at least one column, infinities and nan included (for example the time offset nan of recordings without motion), is written to a file from which an array of the same shape is read: infinities and nan as themselves, numbers within 1e-18, and exactly if zero or at least 2^-7 in magnitude.", "quantifier": "all texts of a cell; all tables of such cells; all arrays of doubles of any size with at least one column", "why_tests_cant": "It characterises the accepted texts in both directions and covers arrays of any size with any doubles.", "anchors": ["hand_eye_calibration/python/hand_eye_calibration/csv_io.py:write_double_numpy_array_to_csv_file", "hand_eye_calibration/python/hand_eye_calibration/csv_io.py:read_time_stamped_poses_from_csv_file", "hand_eye_calibration/python/hand_eye_calibration/bash_utils.py:readArrayFromCsv"]}
{"id": "C111", "title": "Evaluating a calibration in double precision", "statement": "In double precision, comparing two trajectories through a calibration does not raise, and it compares the right poses. Let K be a length between 1 and 500000 (in the unit of the files), and let the calibration and all poses of both trajectories be given by dual quaternions that hold exact motions, with translations of at most K, up to 1e-13 in the rotation part and 1e-13 K in the dual part. If the trajectories are of equal, non-zero length then the poses returned for the hand are within 4e-11 K (position) and 3e-12 (orientation, up to the sign of the quaternion) of the exact hand poses, and those returned for the camera within the same of the exact camera poses carried over by the calibration and taken relative to the first. Recorded poses with positions of up to K/2 and usable orientations, taken relative to the first pose of their trajectory, meet these conditions. If moreover the libm's arccosine is accurate, the evaluation of these poses returns, and a pair is flagged as an inlier only if its exact errors are below the two thresholds plus 1e-10 K and 0.003 degrees, and flagged as an outlier only if its exact position error is at least the threshold minus 1e-10 K, or its exact orientation error at least the threshold minus 0.001 degrees, or at most 0.001 degrees (the error that is not a number, see C108).", "quantifier": "all K in [1, 500000], all pairs of trajectories of equal non-zero length and calibrations in double precision that hold exact motions to the stated accuracy, all thresholds that are finite doubles, every libm with an accurate arccosine", "why_tests_cant": "The claim bounds the accumulated rounding of a chain of inversions, normalisations, products and sign choices for every possible trajectory and calibration; a test exercises single trajectories and has no exact reference.", "anchors": ["hand_eye_calibration/python/hand_eye_calibration/dual_quaternion_hand_eye_calibration.py: get_aligned_poses, evaluate_alignment, compute_pose_error, align_paths_at_index", "hand_eye_calibration/python/hand_eye_calibration/dual_quaternion.py: DualQuaternion.inverse, normalize, enforce_positive_q_rot_w, to_pose"]}
{"id": "C112", "title": "The reported root mean square errors in double precision", "statement": "In double precision, the root mean square of n finite numbers of magnitude at most 1e24, computed as the evaluation of a calibration does (squares added from left to right, division by n, square root), is finite and differs from the exact one by at most 3e-16 (n+4) times the exact one plus 1e-29, for 1 <= n <= 1e9. The same bound holds if the squares are added in any other order or bracketing, as numpy may do. Hence the position error reported for a pair of pose lists with positions of magnitude at most M <= 1e23 is finite and within 1e-15 (n+14) M + 5e-18 of the exact root mean square distance. The reported orientation error is within 0.002 + 1e-13 (n+4) degrees of the exact root mean square angle, or it is not a number, and the latter only if the orientations of some pair agree to within 0.0001 degrees. For a calibration and two trajectories that hold exact motions as in C111, with translations of at most K, the two reported errors are within (1e-10 + 1e-14 n) K and 0.003 + 1e-13 n degrees of those of the exact poses, except for the orientation error that is not a number, which requires a pair within 0.001 degrees.", "quantifier": "all non-empty lists of at most a billion doubles or poses with finite values in the stated ranges, all calibrations and trajectories as in C111, all configurations, every libm with an accurate arccosine", "why_tests_cant": "The claim bounds rounding errors that accumulate with the length of the list, for all lists; a test sees single lists and compares with another rounded computation.", "anchors": ["hand_eye_calibration/python/hand_eye_calibration/dual_quaternion_hand_eye_calibration.py: evaluate_alignment, compute_pose_error, get_aligned_poses"]}
{"id": "C113", "title": "Interpolated poses in double precision", "statement": "In double precision, for recorded poses with finite stamps of magnitude at most 1e29 that are at least 1e-25 apart and positions of length at most M <= 1e23, every interpolated position at a finite time between two neighbouring stamps is finite and within 4e-15 M + 2e-29 of the exact straight line between the two recorded positions. The interpolated orientation is the recorded one of the next stamp if np.isclose takes the time for that stamp, and else finite and, up to sign, within 1e-6 of the one point of the shorter great arc between the two recorded orientations that divides its angle by a fraction within 1e-15 of the exact fraction of the times. If both arcs are equally long up to 1e-12, either may be taken. The recorded orientations need only be within 1e-14 of unit quaternions. The positions of both trajectories returned by the alignment of two pose lists satisfy the same bound.", "quantifier": "all lists of poses with stamps and positions in the stated ranges and orientations within 1e-14 of unit quaternions, all lists of finite sample times, all time offsets, every libm with accurate sine, cosine and arccosine", "why_tests_cant": "The claim bounds rounding errors for all recordings and times, including nearly equal and nearly opposite orientations, where the formula of the code divides by a vanishing length; a test sees single recordings.", "anchors": ["hand_eye_calibration/python/hand_eye_calibration/time_alignment.py: interpolate_poses_from_samples, resample_quaternions_from_samples, compute_aligned_poses", "hand_eye_calibration/python/hand_eye_calibration/quaternion.py: quaternion_slerp, quaternions_interpolate"]}
{"id": "C114", "title": "Angular velocities in double precision", "statement": "In double precision, for two orientations within 1e-14 of exact unit quaternions P and Q and a time step t between 1e-20 and 1e20, the angular velocity reported between them is finite. Let D be P Q* or its negative, with a scalar part of at least -1e-12. Either the zero vector is reported and the scalar part of D is at least 1 - 1.00002e-5, or the scalar part is at most 1 - 9.9998e-6 and the reported vector is within 1e-7 / t of half the rotation vector of D divided by t. For a list of orientations with finite sample times of magnitude at most 1e19 and spaced at least 1e-19 apart, one such vector is reported for each pair of neighbours, for a time step within 2e-16 (relative) of the difference of their sample times.", "quantifier": "every pair of doubles near unit quaternions, every time step in the range, every list of orientations and sample times on which the velocities are computed, and every accurate arccosine of the platform", "why_tests_cant": "The arccosine, the square root of a difference and the two divisions all lose digits near the identity rotation; how much is a statement about all doubles, and a test can only sample them.", "anchors": ["hand_eye_calibration/python/hand_eye_calibration/quaternion.py: angular_velocity_between_quaternions, Quaternion.angle_axis", "hand_eye_calibration/python/hand_eye_calibration/time_alignment.py: compute_angular_velocity_norms"]}
{"id": "C115", "title": "Smoothed angular velocity norms and the offset found from them, in double precision", "statement": "In double precision, clipping n vectors (components of magnitude at most B <= 1e20) at a percentile between 0 and 100 and smoothing them with a kernel of k samples returns n finite vectors. Each component is within 3e-15 (n + 1) B + 1e-23 of the exact moving average of the vectors clipped at the exact percentile. For n orientations within 1e-14 of unit quaternions, with sample times at least g apart, each reported norm is finite and within 1e-13 n / g + 1e-17 of the exact length of the smoothed rates, where each rate is accurate as in C114. For two such recordings with g between 25 microseconds and 1, the offset computed from the norms belongs to a lag at which the exact correlation of the exact norms is within 1e-11 (nA + nB)^2 / g^2 of its maximum over all lags, and the offset differs from the time of that lag by rounding only.", "quantifier": "every list of vectors, every kernel size and percentile, every pair of recordings of doubles near unit quaternions with sample times in the range, and every accurate arccosine of the platform", "why_tests_cant": "The percentile is a discontinuous choice of two order statistics, the clip and the sum follow it, and the lag is an argmax over rounded sums; that no rounding can push the answer further than the bound is a statement about all inputs and sizes.", "anchors": ["hand_eye_calibration/python/hand_eye_calibration/time_alignment.py: filter_and_smooth_angular_velocity, compute_angular_velocity_norms, calculate_time_offset_from_signals, calculate_time_offset"]}
