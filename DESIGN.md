# Formal model of hand_eye_calibration: design

## 1. What is modelled and how

The repository is numerical Python.  The model is a *shallow embedding* in Gallina, one Gallina
function per Python function, branch by branch, with three design decisions:

1. **Arithmetic is a parameter.**  Every model function is written against a record `Num` (file
   `Num.v`) of the scalar operations the Python code uses (`+ - * /`, `sqrt`, `arccos`, comparisons,
   decimal literals, `inf`).  Theorems about control flow, lists, indices and loops are proved *for
   every* `Num`, hence also for IEEE binary64 with any rounding, NaNs and any libm.  Theorems about
   geometry are proved for the instance `XR` (`XReal.v`): the real numbers extended with `+inf`,
   `-inf`, `NaN`, where division by zero, `sqrt` of a negative number and `arccos` outside [-1,1]
   give the IEEE answer rather than a convenient total value.  The instance `F64 L`
   (`F64.v`) is IEEE binary64 with rounding to nearest even, as formalised by Flocq
   (`BinarySingleNaN`); sin, cos, arccos, log and np.mod are an arbitrary record `L` of functions.
   Rounding error properties (C70 and later) are proved for this instance.  Sums of numpy
   (np.dot of four numbers, np.sum, np.mean) are summed from left to right without fused operations.
2. **Exceptions are values.**  `res A = Ok a | Err e` with the Python exception class (`Py.v`).
   `assert` -> `AssertionError`, list indexing -> `IndexError`, undefined names -> `NameError`, ...
   Loops that need not terminate are fuelled and running out of fuel is a distinct outcome.
3. **External effects are oracles** (record fields / section variables): `np.linalg.svd`, the random
   generator, the file system, the tf lookup.  Theorems quantify over all of their answers, or
   over all answers satisfying an explicitly stated contract.

In-place mutation is modelled by returning the new receiver together with the result; in
particular `to_pose`, `to_matrix` (which normalise their receiver) and the sign repair in
`compute_hand_eye_calibration` (which mutates the caller's list).

## 2. Per property plan
(see properties.jsonl for the statements)

| id | modelled as | proof |
|----|-------------|-------|
| C01-C05 | `Quat.v`: `Quaternion` class on 4-tuples, operand dispatch | `ring`/`field` after reduction of XR to R; NaN branches by computation |
| C06 | `from_angle_axis`, `angle_axis`, `np.isclose` with its default rtol | stdlib trigonometry (`acos_cos`), dead zone by inequality |
| C07, C08 | `quaternion_slerp`, `lerp`, `nlerp` | Gram-Schmidt identity, `sin2_cos2`, bound for the un-normalised branch |
| C09, C10 | `angle_between_quaternions`, `angular_velocity_between_quaternions` | scalar part of p q* is the dot product |
| C11-C15, C20, C21 | `DualQuat.v` | ring identities modulo the unit constraints |
| C16 | inductive type of mutating operations, `fold` over histories | invariant by induction on the history |
| C17 | constructor with the un-called method as truth value | for all inputs `Ok` |
| C18, C19 | `scalar`, `screw_axis` | trace invariance, trigonometry |
| C22, C23 | `HandEye.v` list functions | induction on lists |
| C24 | `setup_s_matrix`, `setup_t_matrix`, rows as 8-vectors | quaternion commutation argument |
| C25-C28 | `compute_hand_eye_calibration`, SVD as an oracle with contract | kernel is 2-dimensional, quadratic has the true root, larger root selected |
| C29 | `prefilter_using_screw_axis` as the in-place deletion loop | refinement to a greedy filter, for every `Num` |
| C30-C32 | `compute_pose_error`, `evaluate_alignment`, `get_aligned_poses` | induction, sign analysis |
| C33 | BASELINE as a state machine over start indices | for every `Num` |
| C34-C38 | RANSAC as a fuelled loop over a random stream / combinations | loop invariants for every `Num`; exact-data theorem for XR |
| C39 | cross correlation, argmax | Cauchy-Schwarz, first-maximum lemma |
| C40-C42 | `TimeAlign.v`: `bisect_left`, resampling, `linspace`, alignment loop | induction on sorted lists |
| C43 | `TimeAlign.v`: percentile, clip, zero-padded correlation with a box kernel | order statistics, sums over windows |
| C44, C45 | `CsvIo.v`: reader on parsed rows, writer and reader on characters | codec round trip by induction on digits |
| C46, C47 | `Extrinsic.v` | pose round trip; telescoping product |
| C48, C49 | `Verification.v` | closed form of the index recurrence |
| C50, C52, C53 | `Experiments.v` | finite checks for the shipped tables, induction over rows |
| C51 | `Driver.v`; calibration and estimator are parameters | induction over pairs, iterations and configurations |
| C54 | `RunFiles.v`: result file with buffered writes, per-pair files, crash points | invariant over run histories |
| C55 | `Circle.v`: file system with mtimes, steps with crash points | invariant over histories |
| C56-C58, C60 | `Tools.v` | induction over messages / draws |
| C59, C61 | `Synthetic.v`: draws as arguments, Euler angles as oracle returning unit quaternions | quaternion algebra |
| C62, C63 | `Sweep.v`: `Pool.map` as a relation over schedules (tasks of each worker in order), numpy's generator as a stream copied by fork | schedule-independence of the results, composition of the table theorems |
| C64 | `Race.v`: processes as positions inside `create_path`/`os.makedirs`, one system call per step | invariant over all interleavings, counting, explicit worst interleaving |
| C65 | `Ransac.v` on `XR`, decomposition as oracle | every sample evaluates to the true transform, induction over the search loop |
| C66 | `Cli.v`: argument records, file system as a map from paths to contents, program as a function on it | case analysis for every `Num`; composition with C29, C46, C65 on `XR` |
| C67 | `Cli.v`: `script`, the three programs in sequence on the file system; the batch estimator is an arbitrary function of the three files it reads | case analysis for every `Num`; facts about the inserted prefix by induction on the path; two refuted expectations by concrete runs |
| C68 | composition of the alignment program, the calibration program and the script | C41 (same rows), C66 (exact), C67; example by C69 |
| C69 | `TimeAlign.v` | a window that covers the whole signal averages all of it; cross correlation of constants in closed form; C39 (maximal lag) |
| C70 | `Quat.v`, `CsvIo.v` at the instance `F64` | forward error analysis with the error bound of Flocq for one operation; monotonicity of rounding for the fraction; a computation for the overflow |
| C71 | `TimeAlign.v`, `CsvIo.v` at the instance `F64` | comparisons transported to the reals (bisection); monotonicity of rounding (fractions, shifted stamps stay sorted); error bounds for grid points and for the mean of differences by induction on the recording |
| C72 | `HandEye.v`, `DualQuat.v` at the instance `F64` | forward error analysis in the Euclidean norm of quaternions: products (Cauchy-Schwarz), inverses, normalisation; exact cancellation x + (-x) for `scalar`; a computation for the refutation |
| C73 | `DualQuat.v` at the instance `F64` | the same error calculus, with the algebra of rigid motions of `DualFacts.v` |
| C74 | `HandEye.v` | the rule by induction over the list of values; the sum of squares of the matrix applied to a vector as a sum over singular values (from the specification of the decomposition); traces for small motions |
| C75 | `Estimator.v`, `CsvText.v`, `Cli.v` | the two line splitters agree by induction over the text; both number readers give the same value; rounding bounds for the length check; the script's failure by C67 |
| C76 | `Extraction.v` | the flag parser computed on the command with unknown values; association lists |
| C77 | `Extraction.v` | cases of the program; each truncation leaves a file or empties it. Assumption: the call through the null pointer `camera` (undefined behaviour in C++) ends the program |
| C78 | `Extraction.v` | induction over the images. The loop is modelled for any camera; by C77 the program as it stands never reaches it |
| C79 | `Plots.v` on top of `Experiments.v` | C53 gives the table; induction over the datasets; the binary search on a uniform grid finds the unique bin or the end; induction over the rows |
| C80 | `get_aligned_poses`, `evaluate_alignment` (HandEye.v) | the aligned eye pose is x m x^-1 up to sign; errors bound each pose (C30, C31); the triangle inequality removes the hand poses; a Gram determinant bounds an axis by its cross products with two others |
| C81 | `Views.v` (figures as lists of lines, markers and arrows) | induction over the trajectories; minima and maxima of reals; the aligned poses of C30; noise-free data by the algebra of C21 |
| C82 | `Views.v` on top of `TimeAlign.v` | lengths of the correlation and the lags; C39 for the highest point and the delayed copy |
| C83 | the RANSAC loop (Ransac.v) | every step of a sample on unit rotations gives a value or one of the caught exceptions; invariant of the loop |
| C84 | the RANSAC loop (Ransac.v) | the flags are true exactly at the genuine pairs, so the sample is evaluated on noise-free data (C65); invariant: an error of 0 is never replaced |
| C85 | the baseline loop (Ransac.v) | the loop over the alignment poses is a search for the first pose with enough supporters; each later step gives a value or a caught exception on unit rotations |
| C86 | RANSAC, the baseline and the reported errors (Ransac.v, HandEye.v) | perturbation bounds on unit dual quaternions; two motions with different axes pin the rotation, then the translation |
| C87 | `calculate_time_offset_from_signals` (TimeAlign.v) | Cauchy-Schwarz on the noise terms of the correlation |
| C88 | `compute_aligned_poses` and the calibration (TimeAlign.v, Ransac.v, Cli.v) | interpolation stays on the way between neighbours; the noise of a motion from the noise of two poses; then C86 |
| C89 | `calculate_time_offset` (TimeAlign.v) | rates turn with the reference frame, averages are linear; clipping is a perturbation for C87; order statistics for the one-way rotation |
| C90 | `Windows.v`: the functions with `plot=True`/`visualize=True` as a list of windows and a result | both versions take the same branches; lengths of resampled, smoothed and trimmed lists exclude every exception of the drawing |
| C91 | the calibration program and functions on paths multiplied by a fixed rigid motion from the left | alignment multiplies by the inverse of a pose from the left, so the frame cancels; the sign convention removes the signs when no scalar part is 0 |
| C92 | two runs of the RANSAC loop with the same draws | the shorter run is a prefix of the longer one; every step keeps the best sample or improves both errors; C34 and C35 for the exhaustive search |
| C93 | `compute_aligned_poses` on recordings with all stamps shifted (TimeAlign.v) | the sample times and the weights of the positions shift along; the relative tolerance at time_alignment.py:74 decides when orientations are interpolated |
| C94 | the script compute_complete_handeye_calibration.sh on recordings of two paths (Cli.v) | C67 for the files, C88 with the error of the time offset added to the accuracy of the first recording |
| C95 | `compute_hand_eye_calibration` with an oracle for the singular value decomposition (HandEye.v) | the true calibration and its multiple by the dual unit are almost in the kernel; exact decompositions map them close to the plane of the last two vectors; the normalised root is then one of two |
| C96 | `calculate_time_offset` on regularly sampled orientations with noise (TimeAlign.v) | half-angle vectors are Lipschitz in the relative rotation, order statistics and clipping are Lipschitz, then C87 for the correlation |
| C97 | `compute_hand_eye_calibration` with an oracle for the singular value decomposition (HandEye.v) | the quadratic form of the matrix is the same up to conjugation; singular values are determined by the form, vectors of simple values up to sign; the chosen root is invariant under these signs |
| C98 | `calculate_time_offset` (TimeAlign.v) | the correlation of the exchanged signals at a lag is that of the original ones at the negated lag; argmax takes the first maximum |
| C99 | the csv reader and float() (CsvText.v) | induction over the cells of a line and the lines of a file |
| C100 | `calculate_time_offset_from_signals` (TimeAlign.v) on the instance `F64` (F64.v) | forward error bound of the sum of products by induction, Cauchy-Schwarz for the size of the correlation, argmax of perturbed values |
| C101 | `calculate_time_offset`, `compute_aligned_poses` (TimeAlign.v) | every quantity scales; the order of the correlations is unchanged; a literal counterexample for the absolute limits |
| C102 | `compute_hand_eye_calibration` (HandEye.v), `evaluate_alignment` (Ransac.v), `compute_aligned_poses` (TimeAlign.v) | C25 and C28 on the scaled motions; C31 on the scaled poses; multiplication by the factor commutes with every step of the interpolation |
| C103 | the two programs and the script (Cli.v) | what is read before the first write determines the list of writes; writing the same contents again changes nothing |
| C104 | the number formats of the target extractor and the tf export (NumberText.v), float() (CsvText.v), std::stod and the estimator's reader (Estimator.v) | the written text is a decimal number whose value is Flocq's round to P decimal digits; two different doubles near x are further apart than twice the error of 17 digits |
| C105 | `compute_hand_eye_calibration`, the RANSAC driver; existence of the SVD for eight columns (SvdFacts.v) | successive minimisers of a penalised quartic over a box are eigenvectors of the Gram matrix; the last two singular vectors may be turned against each other |
| C106 | `compute_complete_handeye_calibration.sh` with both python programs | C68 with its hypotheses on filter, offset and SVD discharged from conditions on the recordings (C89, C105, angle bound for the prefilter); the offset of C89 leaves at most two aligned poses for the failures |
| C107 | `calculate_time_offset`, `compute_aligned_poses` (TimeAlign.v), the main programs (CsvIo.v, Cli.v) | number of resampled points from the truncated quotient; interpolated quaternions are within 1e-16 of unit length, so all rates are finite; nan compares false with everything |
| C108 | `compute_pose_error`, `evaluate_alignment`, `angle_between_quaternions` (HandEye.v, Quat.v) at the instance `F64` | error bounds of products, norms and quotients (F64Facts, FloatFacts); the arccosine near 1 by Lipschitz and square-root bounds |
| C109 | `screw_axis` (DualQuat.v), `prefilter_using_screw_axis` (HandEye.v) at the instance `F64` | degrees and back cancel up to 1e-14; sin a against the length of the vector part; quotient and product bounds; the decisions by C29_prefilter |
| C110 | `np.savetxt`, the csv reader and `float()` for all doubles (CsvSpecial.v on top of CsvText.v) | the words by their lower case; underscores by the character before; overflow by rounding the midpoint above the largest double; the table by C99 and the round trip by C45 |
| C111 | `get_aligned_poses` (HandEye.v) and `evaluate_alignment` on the instance F64, with exact motions as specification (`tracked`, `tells`) | error propagation through inverse, normalisation, sign choice, product, normalisation, alignment at the first pose and `to_pose` with the lemmas of FloatDual.v; then C108_flags and the continuity of distance and angle. `C111_recorded` starts from recorded poses (C72_align). |
| C112 | the two `math.sqrt(np.sum(np.square(...)) / n)` of `evaluate_alignment` (HandEye.v) on the instance F64; np.sum adds from left to right in the model, and C112_any_order gives the same bound for every order and bracketing of the additions, so for the pairwise sums of numpy | a bound on the rounding of sums of non-negative doubles by induction; Minkowski's inequality for lists to pass from the errors of the pairs to their root mean square; C108 and C111 for the pairs |
| C113 | `interp` (np.interp), `resample_one`, `interpolate_poses_from_samples`, `compute_aligned_poses` (TimeAlign.v) and `quaternion_slerp` (Quat.v) on the instance F64; sine, cosine and arccosine are any libm functions accurate to 1e-15 | rounding of the slope formula by linear bounds; the part of q orthogonal to p by Pythagoras, with the case of nearly equal quaternions apart, where it is not normalised; the exact point is fixed by its angles to both ends (C113_between) |
| C114 | `angular_velocity_between_quaternions`, `angle_axis` (Quat.v) and `angular_velocities` (TimeAlign.v) on the instance F64; the arccosine is any libm function accurate to 1e-15 | outside the dead zone of np.isclose around the identity the arccosine is Lipschitz with constant 250 (mean value theorem) and the square root is at least 0.0044; linear bounds of the roundings; the specification `rate_near` leaves both answers open where the dead zone ends |
| C115 | `percentile`, `clip`, `filter_and_smooth`, `compute_angular_velocity_norms` and `calculate_time_offset_from_signals` (TimeAlign.v) on the instance F64; scipy.signal.correlate is the direct sum, so the rounding of an FFT is not modelled | the line through the order statistics is Lipschitz with constant 2B in the rank, the clamp is exact in doubles and 1-Lipschitz, bounds of rounded sums of products; the correlation of perturbed signals differs by at most n times the product of the bounds. Not covered: the orientations must be within 1e-14 of unit quaternions, as recorded ones are, while slerp results are only shown within 1e-6 of one (C113), so the step through `resample_quaternions` is not part of this claim |

## 3. Trusted base
Coq 8.16.1's kernel and the modelling choices stated in the comments of the model files.  The files
`Assumptions1.v` to `Assumptions4.v` run `Print Assumptions` on every theorem listed in MANIFEST.json, in each build.
Only four axioms occur, all from the standard library:

* `FunctionalExtensionality.functional_extensionality_dep`
* `Classical_Prop.classic`
* `ClassicalDedekindReals.sig_forall_dec`
* `ClassicalDedekindReals.sig_not_dec`

They come with the standard library's real numbers.  Theorems quantified over every `Num` (control
flow, lists, loops) are closed under the global context.

Library functions the code calls are modelled by their documented meaning and are part of the trusted
base: numpy (sums from left to right, `isclose`, `allclose`, `clip`, `percentile`, `median`,
`linspace`, `interp`, `argmax`), `scipy.signal.correlate` as the direct sum, `bisect_left`,
`itertools.combinations`, `random.sample`, `csv`, and `json` (dump followed by load returns the
same values; `Extrinsic.v` works on those values).  `np.linalg.svd` is an oracle; where a theorem needs more
than its type, the contract `svd_spec` (Spec.v) is a hypothesis of the theorem.  C105_exists proves that every
matrix has a decomposition with this contract.

What `XR` leaves out: rounding.  The geometric theorems speak about exact real arithmetic with
IEEE-like special values; they do not bound floating-point error.  The theorems for every `Num` do
cover binary64, and C70 and later are about rounding in binary64.

## 4. Not modelled
plotting other than `Views.v`, `Windows.v` and `Plots.v`, logging, argument parsing beyond what `Cli.v` models, ROS/rosbag, OpenCV/maplab C++ code, wall-clock timing.
Of the batch estimator only the pose files are modelled: not the estimation, nor hexadecimal numbers, inf and nan in its
number reader, nor the conversion of seconds to its time type.
Of the target extractor the images, the detection, the pose estimation, the reprojection rows, the drawing and the other flags of glog and gflags
are not modelled.
Of the figures of the calibration and of the time alignment the rendering, labels (other than titles), sizes and styles are not modelled.
Of generate_plots.py the drawing, the labels, the other two plot orders (never selected) and argparse are not modelled; np.mean is the mean of
the reals, and the edges of np.arange are those of real arithmetic in C79_maps.

## 5. Findings (claims one would expect that are false of the code)
Each is part of the statement of its property and proved of the model.

* Rotations closer to the identity than about half a degree lose their axis and their angular
  velocity, because `np.isclose` adds a relative tolerance of 1e-5 (C06, C10).
* Half turns: conversion from a rotation matrix gives NaN (C04); screw parameters need care (C18, C19).
* `angular_velocity_between_quaternions` returns half the angular velocity, reversed (C10).
* The `DualQuaternion` constructor never rejects anything: the validity check is a method that is not
  called (C17).
* The quadratic's discriminant is clipped at zero, which can return a non-rigid result (C27, C28).
* With prefiltering, RANSAC aligns the unfiltered paths at an index into the filtered ones (C36).
* Random-sampling RANSAC need not terminate (C35); a better model is kept only if both errors
  decrease (C34).
* The exhaustive BASELINE raises `NameError`; BASELINE applies its best start index twice and can raise
  `IndexError` (C33).
* With Unix time stamps quaternions are never interpolated: the next sample is returned (C40).
* `compute_aligned_poses` always loses the last stamp of two paths with equal stamps (C41).
* The time offset resamples at the larger, not the smaller, mean step (C42).
* The clipping limit is a percentile of signed values; when it is negative all values are overwritten
  by it (C43).  The default limits differ for the two paths.
* Without rotation, `calculate_time_offset` answers with almost the whole signal length (C39).
* Poses in JPL convention are written back unconverted (C44).  Numbers are written with 18 decimals:
  values below about 1e-2 in magnitude can change, those below 5e-19 vanish (C45).
* Reading a calibration file under the other quaternion convention conjugates the rotation but keeps
  the translation: a different transform, not the inverse (C46).
* The result table's prefiltering column is always False, also for the configurations with
  prefiltering (C50).
* A failed calibration aborts the experiment driver, unless the pair is not used by the loop error
  (C51).
* A kill at the wrong moment leaves a result table without header for good, or a pair of files that no
  later run accepts (C54).
* `close_the_circle_test.py` takes a step with one of its two outputs for up to date: a kill between
  the two writes is never repaired, and later steps that need the file fail each time (C55).
* `tf_to_csv.py` writes repeated stamps although its comment says otherwise, counts failed lookups as
  exported, and raises ZeroDivisionError for one success followed by three failures (C56).
* Different bags, topics or frames can map to the same output file (C57).
* The default percentages of `introduce_data_drops` violate its own assertion (C58).
* `create_path` raises NameError on every OSError: errno is not imported (C60).
* `generate_test_paths` computes the second path inside the if: paths_start_at_origin=False always
  raises.  The orientation noise is a conjugation and leaves every rotation angle unchanged.  Outlier coordinates
  are scaled by -1 or 0 ("-1 ... else 0"), so that outliers never have positive x or z (C59).
* `spoil_initial_guess` fails its own assertion for tiny angles with a positive lower bound (C61).
* One failed initial calibration, or an exception in one worker, ends the whole perturbation sweep without
  a line (C62).  The iteration number in its file names is always num_iterations - 1 (C62).
* The forked workers of the sweep share the state of numpy's generator: trials of different workers are
  copies of each other (C63).
* The guard against the race in `create_path` turns the race into a NameError (C64).
* After a failed calibration `compute_hand_eye_calibration.py` dies with AttributeError when an output is requested
  and exits normally otherwise; fewer than ten pairs of poses always fail (C66).
* The time offset file is read only after the calibration: if it is missing, the extrinsics file is written, the JSON
  file is not, and the program ends with OSError (C66_no_offset).
* `--visualize=0` switches the plots on: argparse's type=bool is true for every non-empty text (C66).
* `compute_complete_handeye_calibration.sh` ignores failures of the alignment and calibration programs: it goes on with the files an earlier run left
  behind and can end with status 0 and a result that has nothing to do with the given datasets (C67, two `_refuted` theorems).
* A dataset called like the aligned file of the other dataset is overwritten (C67).
* For recordings of up to 14 samples the time offset does not depend on when the motions happen (C69_delay_refuted).
* Finite quaternions with huge components overflow in `norm` and normalise to the zero quaternion (C70_overflow_refuted).
* A recording of which resampling leaves two samples gets a nan time offset without an error (C71_single_velocity_refuted).
* A path that is aligned at a pose 7e7 from the origin (70 km in millimetres) fails the origin check of `align_paths_at_index` because of rounding (C72_far_refuted).
* Exact recordings with small motions are reported with bad singular values, whatever their quality, and the flag can be cleared by repeating
  the same motions; `collect_data_from_csv` leaves flagged rows out of its averages (C74, C53).
* Pose files with quaternions of few decimals (such as 0.7071), or not normalised, are accepted by the Python programs but abort the batch
  estimator; so does an empty line (C75).
* `target_extractor.cc` calls `deserializeFromFile` through a null pointer after it has emptied the output files: no pose is ever written, the
  poses of earlier runs are lost, and `target_extractor_interface.py` reports success (C77; assumes that the call ends the program).
* `target_extractor_interface.py` never passes its inlier share of 0, so images with a share up to 0.4 are dropped (C76); for an output file in
  a directory the sequenced file goes to a directory called `sequenced_<directory>` (C76_flags).
* The flags of the extractor announce T_C_G in JPL convention; what is written is T_G_C with the quaternion as Eigen has it (read, not modelled).
* `generate_plots.py` ends with AssertionError for every table of an ordinary experiment, since rows without perturbation have no angle
  (C79_no_maps), with KeyError if one method failed on all runs of one dataset, and with IndexError for eight datasets (C79_figures).
* Two calibrations half a turn apart can both be reported with errors exactly 0 although the axes are not parallel, if all motions are half
  turns about axes in one plane (C80_half_turns_refuted); away from half turns the reported errors do determine the calibration (C80_determined).
* `--plot_every_nth_pose 0` with `--visualize` ends with ValueError from the slice, before the calibration is written (C81).
* RANSAC never compares numbers of inliers: a sample with one error equal to 0 is final (C84_first_exact_wins).  All shipped configurations
  measure the errors on all poses, outliers included (`ransac_evaluate_refined_model_on_inliers_only = False`), so that the guarantee of C84
  for clean samples does not apply to them.
* If the prefilter leaves fewer poses than a sample needs, random sampling ends with ValueError instead of a failure report (C83_too_few).
* The baseline calibration reuses the index of the pose that had enough agreeing poses as an index into the (shorter) list of agreeing poses:
  if that pose does not come early enough, the call ends with IndexError (C85_baseline).  On empty lists it ends with
  UnboundLocalError.
* Because the clipping limit is a percentile of signed components, a sensor that only turns forwards about the z axis
  of its reference frame has all its rates clipped to zero, and the time offset is wrong by almost the length of the
  recording (C89_one_way).  The same happens, because of the tolerance of `isclose`, to a sensor that turns by less than half a degree per sample, i.e.
  slowly or with a high frame rate (C89_slow).
* `calculate_time_offset` passes the filtered norms twice to `plot_input_data`: the panels for the unfiltered and for the filtered norms
  show the same curve (C90_windows).
* The prefilter compares screw axes of absolute poses, so the calibration functions called directly depend on the choice of the
  reference frames when it is on (C91_prefilter). The program is safe: it aligns both paths to their first pose before.
* Whether orientations are interpolated depends on the origin of the clocks: time_alignment.py:74 compares stamps with the relative
  tolerance 1e-5 of numpy's isclose, so with Unix time stamps every aligned orientation is the next recorded one (C93_unix,
  C93_origin_refuted), while positions are interpolated as usual (C93_positions).
* With arbitrarily little noise compute_hand_eye_calibration can return, without a warning, a calibration that is half a turn off
  with an enormous translation: dual_quaternion_hand_eye_calibration.py:277-289 picks the root with the larger value of
  s^2 u1.u1 + 2 s u1.u2 + u2.u2 before normalising, and without noise the wrong root would give 0; with noise it does not, and
  which of the two is larger depends on the basis of the last two singular vectors (C95_continuous_refuted).
* The acceptance test of setup_t_matrix and of the tolerance check is not symmetric in hand and eye, because np.allclose is relative to
  its second argument (C97_asymmetric).
* With several equally good lags the time offset is not antisymmetric in the two recordings; for slow motions (at most half a degree
  per sample) the two offsets differ by the length of both recordings (C98_slow).
* If two lags are equally good up to rounding, the computed time offset can be that of the worse one (C100_tie_refuted).
* The limits of 0.1 s of compute_aligned_poses are absolute: recordings in another unit of time can lose all poses (C101_alignment_refuted).
* The tolerance for the dual scalar parts is an absolute length: whether noisy motions are accepted depends on the unit of length
  (C102_small_unit).
* `tf_to_csv.py` writes numbers with `str()`.  With Python 2, which the package was written for, these are twelve digits: time stamps since
  1970 are rounded to 10 ms, and stamps of a faster tf stream become equal (C104_stamp, C104_stamps_merge, C104_stamps_refuted).
* For noise-free data the two smallest singular values are both zero, so any turned pair of the last two right singular vectors is a correct
  answer of `np.linalg.svd`; for every such data set one of them makes the calibration raise AssertionError (C105_calibration).  The code
  divides by the scalar product of the two halves of the second to last vector, which may be zero.
* Recordings in which the hand turns by less than about half a degree per sample (a careful motion recorded at a high rate) never calibrate
  with the complete script, nor does a turntable that never turns back: the offset of C89_slow and C89_one_way is wrong by almost the whole
  recording, and the calibration step fails because too few aligned poses are left (C106_slow,
  C106_one_way).  The script does not check for the failure and starts the batch estimator with the calibration.json of an earlier run.
* If the recording of the hand is shorter than two steps of the slower recording, `calculate_time_offset` returns nan instead of raising;
  compute_aligned_poses.py then ends with status 0 and writes empty pose files and the offset nan (C107_useless).
* `angle_between_quaternions` passes the scalar part of a product of two normalised quaternions to arccos.  In doubles it can round to a
  number above 1 for nearly equal orientations that are not element-wise close, and the angle is nan (C108_nan_refuted: orientations
  1.3e-6 degrees apart).  Nothing raises: the pair counts as an outlier, the rmse of the orientation becomes nan, and RANSAC can never
  accept the sample (C108_nan_spreads, C108_sample_lost).
* In doubles the first aligned pose (the identity up to rounding) can have the scalar part 1 - 2^-53.  `screw_axis` then reports a rotation of
  1.7e-6 degrees about rounding noise divided by 1.5e-8, which is above the limit 1e-12 for a vanishing axis, and
  `prefilter_using_screw_axis` keeps the identity pair as its first pair when both lists show this (C109_identity_kept_refuted: orientation
  (1,3,1,1)/sqrt 12).  In exact arithmetic the pair is always dropped (C29_identity_dropped).

## 6. Seeded bugs

`seeded/LOG.jsonl` has one line per wrong program, made by `tools/mutate.py`. How to read it:

* A bug counts as caught when a file with theorems of the broken property no longer builds. `theorems_failed` names the
  statement where the build stopped in each file.
* That statement can be a supporting lemma, or an example on literals, instead of the property theorem. Such a line shows
  that the proof breaks, which is weaker than the theorem becoming false: a proof script can also break by itself.
* `theorems_tightened` is filled for survivors, and also where reading the statements showed that a bug was caught only
  in this weaker way (for instance the swapped datasets of `script_calibration_args`, which the statement of C67_success
  had allowed because it used the model's own argument record).
