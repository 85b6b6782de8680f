# Formal model of robot_cal_tools: design

The source under study is `/repo` (C++). Everything here is about a model of it,
written by hand in Coq 8.16.1 from reading the source. The code itself is not
built or run. Each model definition cites the file and lines it transcribes.

## 1. Layout

| directory (under `rocq/theories`) | contents |
|---|---|
| `Base/`  | numbers, vectors, 3x3 matrices, rigid transforms, outcomes; library lemmas |
| `Model/` | transcriptions of the C++ functions, no proofs |
| `Spec/`  | small independent specifications used in theorem statements |
| `Proofs/`| lemmas |
| `Props/` | one file per property: only `Theorem`s closed by `exact`, non-vacuity `Example`s, and `Print Assumptions` |

## 2. Modelling conventions

* **Numbers.** `double` is modelled as Coq's real numbers `R`. Rounding, NaN,
  infinities and overflow are not modelled, except in C97 to C101, in C104 to C106, and where the code itself tests for
  them, and that is said in the definition. `std::numeric_limits<double>::epsilon()`
  is `2^-52`. Container sizes and indices are `nat`; `int` values that may be
  negative are `Z`; unsigned wrap-around is written explicitly where a property
  depends on it.
* **Floating point.** C97 to C101 and C127 treat the computations where rounding can show in IEEE arithmetic: `Base/Float.v` takes
  the operations of Flocq's `BinarySingleNaN` (round to nearest even, signed zeros, infinities, one NaN), `Model/FloatCode.v`
  transcribes the code with them. One rounding per operation is assumed: no fused multiply-add, no extended precision.
  The loop over gains in `Model/CircleGridFinder.v` is in these doubles too.
* **Outcomes.** A function that may throw returns `res A`, one of `Ok a`,
  `Throw e`, `UB` (undefined behaviour: out-of-range access, null dereference,
  failed `assert`, and a failed CHECK inside Ceres, which aborts).
  `UB` is never identified with a normal value.
* **Ceres, Eigen, OpenCV, yaml-cpp, ROS** are not modelled from their sources. The
  solver is a universally quantified oracle: theorems hold for every solver
  outcome, or state the (few) facts assumed of it as hypotheses. The
  Eigen/Ceres primitives that the code relies on for its meaning (angle-axis to
  matrix, matrix to quaternion, quaternion to angle-axis, Euler angles,
  `AngleAxisRotatePoint`, isometry inverse) are transcribed from their documented
  algorithms in `Base/` or `Model/`; this transcription is part of the trusted base.
* **Nothing divided by nothing.** In `R` a quotient by zero is some real number (0 here). The code divides the cost by the number of
  residuals without a test, so for a problem without a single point it reports NaN where the model reports 0. What the
  theorems say about reported errors is meant for problems with points.
* **Memory.** Parameter blocks identified by address in C++ are identified by keys
  (natural numbers) in the model.

## 3. Trusted base

* The kernel of Coq 8.16.1 and its standard library.
* What `Print Assumptions` lists under each theorem. Theorems over `R` depend on
  the standard library's axioms of the reals and nothing else:
  `ClassicalDedekindReals.sig_forall_dec`, `ClassicalDedekindReals.sig_not_dec`,
  `FunctionalExtensionality.functional_extensionality_dep`, and
  `Classical_Prop.classic` where a library lemma uses it.
  Theorems over lists, naturals and integers are closed under the global context.
* The reading of the C++ code in `Model/` (section 2), and of the library
  primitives listed there.
* No axioms, parameters, functors or module types are declared here.

## 4. Plan per property

Findings, where the code does not satisfy the property, are proved as theorems
named `..._refuted` with a witness, and the domain on which the property does hold
is proved under the name `..._partial`.

| id | model | proof |
|---|---|---|
| C01 | `transformPoint`, `poseTransformPoint`, ceres `AngleAxisRotatePoint`, `poseCalToEigen` over R | both sides branch on the same test; ring after unfolding Rodrigues in each branch |
| C02 | `poseCalToEigen` | orthonormality and determinant of Rodrigues' matrix by ring and cos^2+sin^2=1; exact deviation formula in the small-angle branch; refuted exactly there |
| C03 | Eigen `Quaternion(Matrix3)`, `AngleAxis(Quaternion)`, `AngleAxis::toRotationMatrix`, `poseEigenToCal` | every rotation matrix is the matrix of the extracted unit quaternion (four branches); half-angle formulas with `atan` |
| C04 | both hand-eye cost functors | reduce point transforms to rigid compositions with C01, C03 |
| C05 | hand-eye `optimize` residual-building loop | induction over observations and correspondences |
| C06 | hand-eye `optimize` with solver oracle | C01, C03 and inverse laws |
| C07 | both `projectPoint` overloads | case analysis; exact characterisation of agreement; refuted behind the camera |
| C08 | `projectPoint` | field arithmetic |
| C09 | `createRelativeTransform` | matrix algebra, rigidity from elementary rotations |
| C10 | `getFK` | induction over joints; error conditions by case analysis |
| C11 | `DHChain(other, offsets)` | induction, offsets associate with parameters |
| C12 | `DHChain(other, offsets)`, labels, limits | refuted by witness; holds for chains with default names and limits |
| C13 | `createDHMask`, labels | list membership, `NoDup`, index arithmetic |
| C14 | `addSubsetParameterization` on a model of the problem's per-block state | sort/unique lemmas; exact for non-negative masks; refuted for negative indices |
| C15 | `EigenQuaternionPlus` | quaternion algebra, trigonometric identities; surjectivity through `atan`/`acos` |
| C16 | `computeCorrelationsFromCovariance` with the mutated local variable | loop invariant; Cauchy-Schwarz for semi-definite forms; refuted for near-zero variances |
| C17 | `computeCovarianceResults` | index bookkeeping by induction |
| C18 | `computeCovariance` with solver oracle | induction over blocks |
| C19 | `getCorrelationCoeffOutsideThreshold` | permutation and sortedness, for any sorting function meeting the `std::sort` contract and for insertion sort |
| C20 | label construction and Pose6d layout | refuted by the layout; holds for the PnP blocks |
| C21 | `MaximumLikelihood` | pointwise arithmetic; shape check refuted |
| C22 | `CircleDistCost`, circle `optimize` | arithmetic with `sqrt`; oracle |
| C23 | grid and random samplers | index arithmetic; degenerate grids refuted |
| C24 | `calculateHomographyError`, linear solve as oracle | linear algebra on the 8 unknowns |
| C25 | `computeLinePlaneIntersection` | field arithmetic |
| C26 | `project3D`, `compute3DProjectionError` | ray/plane geometry in rigid frames |
| C27 | `measureVirtualTargetDiff` with PnP oracle | firstn/skipn partition |
| C28 | `measureIntrinsicCalibrationAccuracy` with size_t arithmetic | refuted for the empty set, proved otherwise |
| C29 | `computeQuaternionMean` accumulation, stats | sums invariant under sign and permutation; eigenvector extraction is an oracle |
| C30 | four cost functors | as C04 |
| C31 | wrist-only `optimize` | rigid algebra |
| C32 | camera-only `optimize` | rigid algebra; refuted for zero images |
| C33 | intrinsic `optimize` image loop | induction; covariance block list refuted |
| C34 | `projectPoints2` | arithmetic |
| C35 | PnP costs and `optimize` | C03 and Rodrigues |
| C36 | `createPoints` | list indexing, injectivity |
| C37 | three `createCorrespondences`, ID maps | induction over the ordered map |
| C38 | grouping loop of `detectKeyPoints` | invariant over the fold |
| C39 | `applyThresholds` | arithmetic |
| C40 | ordering step of `extractKeyPoints` | permutation for all sizes; per-orientation index of the large circle; refuted orientations |
| C41 | `parse`, `saveToDirectory` over an abstract file system | induction |
| C42 | `ExtrinsicCorrespondenceDataSet` with out-of-range writes as UB | induction; uneven data refuted |
| C43 | loaders over an abstract parameter tree | case analysis |
| C44 | YAML nodes as a tree; encode/decode pairs | round trips, C03's quaternion lemma |
| C45 | result encode/decode with Eigen's Euler angles | refuted by witness |
| C46 | equality operators | case analysis; KinematicObservation refuted |
| C47 | dual-chain costs | rigid algebra, quaternion distance |
| C48 | parameter block construction | list computation; zero-joint chains |
| C49 | `printTitle` | arithmetic on lengths |
| C50 | collector state machine with shared image buffers | invariant by induction over events |
| C51 | `createUniformlyRandomPose`, the function-static generator as an explicit state | induction over joints and calls; seeds refuted |
| C52 | `DHChain` accessors | list computation |
| C53 | names given to the covariance report of kinematic calibration | list computation; chains without joints refuted |
| C54 | circle `optimize` and its covariance names | chain rule on the radius variable; refuted |
| C55 | circle grid `createCorrespondences`, `findTargetFeatures` | induction over the ordered map |
| C56 | `findCircles` contour loop and filters | case analysis per contour; zero deviation refuted |
| C57 | `saveToDirectory` as a list of writes, cut anywhere | invariants over prefixes; refuted within the index |
| C58 | `toYAML` on parameter trees | nested induction |
| C59 | plugin `init` functions on YAML trees | case analysis per field |
| C60 | `printTransform`, `printTransformDiff`, `printOptResults` as token lists | Euler, quaternion and angle-axis lemmas of C03, C44, C45 |
| C61 | observation loops of the hand-eye tools; finder, screen, LU solver and generator as oracles | loop invariant: the selection is `chosen` |
| C62 | `handEyeTool`: loop, optimization, report | C61 with the hand-eye theorems (C04, C05) and the projection error theorem (C25) |
| C63 | `analyzeResults`, `reproject` | loop invariant on the accumulators (C29), angle lemma of C13 |
| C64 | `analyze3DProjectionError` statistics | list lemmas |
| C65 | `validationTool` | loop invariant with C28; no target refuted |
| C66 | `noiseProblems` with the static image as loop state | loop invariant; refuted |
| C67 | `intrinsicTool`, `opencvCameraCalibration` | loop invariant; no images and no target refuted |
| C68 | `solvePnpTool`, `solveCVPnP` | C35; OpenCV's flag refuted |
| C69 | `getReprojections`, the example's loop | C08, loop invariant |
| C70 | `multiStaticTool` (`Model/CameraTools.v`) | C42, C30, loop invariants; missing data sets refuted |
| C71 | `stepTool` | C42, C31, C32, loop invariant; no common image refuted |
| C72 | `reprojectCameras` in the three tools | loop invariants; the multi-step tool's pictures refuted |
| C73 | `loadMeasurements` (`Model/KinematicExample.v`) | induction over entries; missing joints and unnormalised quaternions refuted |
| C74 | `compareToMeasurements` | C47, C46, statistics lemmas |
| C75 | `kinematicExample`, `createTwoAxisPositioner` | C48, C53, C74; aborts refuted |
| C76 | `cov_toString`, `printCorrelationCoeffAboveThreshold` (`Model/CovReport.v`) | induction over lists, C19 |
| C77 | PnP of C35 with a solver that reports the cost where it ends | a pose is known by three points, or by the pixels of four flat ones (`Proofs/UniqueLemmas.v`) |
| C78 | hand-eye of C04-C06, such a solver | the difference of two calibrations commutes with all motions; two axes leave only the identity |
| C79 | calibrations of C30, such a solver | C78 for one camera, then from camera to camera |
| C80 | circle fit of C22, such a solver | two circles share at most two points |
| C81 | DH chains of C12, problem of C48, example of C75 | a joint moves before its last offsets act and after its first; cost of the values with these replaced |
| C82 | `printCameraIntrinsics`, `printCameraDistortion`, `printResults`, `Stats::print`, the output of `main`; Eigen's matrix format | lines and cells of the text, for every way to write numbers without line ends or separators |
| C83 | the cost functors as templates over a number type, `ceres::Jet` | jets carry the derivative along every line through the point; both branches of each formula |
| C84 | the same at the start values | the rotation vector of an identity guess is zero; jets of the norm of a zero vector; plateau of `createTransform` |
| C85 | `kin_optimize2D3D`, `kin_optimizePose6D` on perfect data | zero cost = zero priors and exact errors (C48); moving one chain at a time is a hand-eye equation (C78); images by C77 |
| C86 | `getCorrespondences`, `makeKinectCamera` | points in front within the image (`visible`); induction over the points |
| C87 | `createObservations` of rct_optimizations_tests | C78 on the observations of the proposals; zero residuals by the frames of C04 |
| C88 | `lookAt` and the three pose generators | positions by index; the frame of `lookAt` is right-handed and orthogonal unless the view is along up |
| C89 | `RandomZRotPoseGenerator` | the turned copy is thrown away: the poses are those of the inner generator |
| C90 | generators inside `createObservations` | the generators already work in the frame of [T], which is then applied again |
| C91 | `createKinematicObservations`, `createKinematicMeasurements` | loop invariant of the attempts; counts of correspondences; zero residuals by C12 |
| C92 | `perturbPose` | one stream of numbers from a fixed seed; the order of evaluation of arguments is a parameter |
| C93 | `perturbDHChain` | the draws by index; names and limits are those of the constructor |
| C94 | `Target` of rct_optimizations_tests | unsigned arithmetic of 32 bits; mirror images of grid points |
| C95 | `createObservations` for chains | the base transform is not in the mounts: it fits exactly if that is the identity |
| C96 | `optimize` for intrinsics, `projectPoints2` | four points of a plane give the homography up to scale; lengths and angles of the target's sides give linear equations for the camera; parallel pictures: scale focal length and depth together |
| C97 | `projectPoint`, both overloads, in doubles (`Model/FloatCode.v`) | one relative error per operation, added up |
| C98 | `extractKeyPoints`, `extractModifiedCircleGrid` | the gains by computing 201 doubles, with an error bound by induction; the two loops as one over all tries |
| C99 | `applyThresholds`, the thresholds in float and double | monotone rounding; differences of floats have a relative error only |
| C100 | Boost's mean and variance in doubles | induction over the samples with a bound for the distance from the exact accumulator |
| C101 | `computeCorrelationsFromCovariance` in doubles | one relative error per operation |
| C102 | `optimize` for hand-eye and PnP, run on two descriptions of the same data | the pose of the target in the camera in new frames is the old one scaled; sums of squares over a permutation; every calibration of the new frames comes from one of the old |
| C103 | the four multi-camera and hand-eye `optimize`s and PnP, run on the same data | every reported error is the error of a family of target poses; the families are contained in each other; sums of squares split by camera and by picture |
| C104 | the decimal text yaml-cpp writes for a double with p digits (`%g`), and reading it as the nearest double | p digits are within half a unit of the value; 17 are closer than half the gap between doubles; the text reads as those digits |
| C105 | the characters of a pose file, lines and entries of cut texts | where a cut line ends; a missing or empty last entry is an error |
| C106 | the characters of the index and of whole data sets, saving that stops at a character | the cut index is a list of the first items and perhaps part of one; names that are cut name no file; rounding of quaternions |
| C107 | nothing new: the kinematic and the hand-eye calibration on the same data | the cost of the problem handed to the solver is the whole error of the stored estimate; estimates of the smaller mask are among those of the larger freedom; with held chains both calibrations have the same errors |
| C108 | nothing new: the multi-camera and intrinsic `optimize`s on the same data described in two ways | target poses in the cameras of both descriptions correspond one to one; the errors of corresponding poses differ by the square of the picture scale; hence best results correspond |
| C109 | nothing new: intrinsic calibration and PnP on the same pictures | the poses of the estimates are among those the calibration may choose; the start of the optimization is the guessed camera and the poses of the calibration's own estimates |
| C110 | nothing new: each calibration run again from its result | the start of the optimization stands for the guesses (plain poses are stored and read back unchanged), so the initial cost is the error of the guesses; the final cost is that of the result (C103, C107), which is the guess of the second run |
| C111 | nothing new: `DeterminedSpec` says when motions leave a direction alone or keep a line | results without error see the target where it is (C77), so they differ from the truth by a movement that commutes with all motions; the axis, the translation or, for half turns, the line of such a movement is what all motions keep, and conversely |
| C112 | `Model/PrintText`: the characters of printed numbers, of Eigen's matrix format and of whole printed transforms | the text of a number is the nearest decimal with six digits (C104's lemmas) and is read back to the double nearest to that; lines and words of the text; quaternion and angle formulas change by at most a multiple of the error of their numbers |
| C113 | `Model/ToolText`: everything the tools write on std::cout when they reach their end, from the numbers their models return | the text is put together from blocks of lines (C112's lemmas for transforms, results and cameras); the blocks are matched with what the tools compute (C62 to C68, C72); two labels are refuted with three cameras of which the first misses the first image |
| C114 | targets whose points lie on one line, for all calibrations; circle grids of every size | the turn about the line fixes all points, so no residual changes and every family of results is closed under it; conversely three points not on a line, or four corners of a grid, determine the pose (C77's lemmas) |
| C115 | the same kinematic data in two descriptions (Spec/KinChoicesSpec.v): units, frames at bases, camera and target, order, picture size | forward kinematics and both residuals in the new description are the old ones moved or scaled; offsets with their prior scale alike unless one prior acts on lengths and angles; a bijection of the allowed results carries best results over; one-joint problems with explicit optima for the refutations |
| C116 | all calibrations of C77–C80 on data near perfect ones (Spec/NearSpec.v) | a small cost bounds every residual; data and results form a filter in which residuals tend to zero; the poses seen tend to the true ones (homographies and measured triangles are determined by continuous formulas), motions and axes tend, so camera and target poses tend; no explicit noise level is computed; instead of a small reported cost a result may fit as well as the truth does, whose errors tend to zero |
| C117 | noise qualification, intrinsic validation and its tool on data near perfect ones (Spec/CheckSpec.v) | C116 puts every pose estimate near the true pose; rotation matrices that are close have quaternions with a scalar product near one, hence a small angle; the mean orientation maximises the sum of squared scalar products, so it is near one of the orientations and hence near all; averages and deviations of close numbers are small; a common noise level for a finite list of pictures. The singular value decomposition is assumed right for the results at hand |
| C118 | `Model/CheckText`: the noise tool from the loaded parameters to its statistics, with one solver for all pose estimations | all problems are the first file's (C66), so all results are equal and the statistics of equal poses (C67) apply; refuted with two perfect pictures half a metre apart. Exact arithmetic: sums of doubles may leave tiny deviations |
| C119 | `Model/CheckText`: the messages of the validation and noise tools, character by character (Spec/MessageSpec.v) | the lines of concatenated texts, C112's lemma on printed numbers, C65's verdict |
| C120 | no new model; pooled data and best results (Spec/PooledSpec.v) | total errors are sums over the measurements (C103's reports), so the pooled error splits into the errors of the sessions for every calibration; images of the second session get later numbers |
| C121 | the target script (Model/TargetScript.v): a page with filled shapes in drawing order | the colour at a point is that of the last shape over it (Spec/SheetSpec.v); induction over the marked dots from the last one; dots cover no mark drawn before since grid points are a spacing apart |
| C122 | as C121 | extreme points of the dots against the page size; for the distance between dots the two-thirds point between the origin and its neighbour |
| C123 | as C121, checkerboards | within a column or row the colour does not change sideways, so four squares can only meet on the lines; outside the board everything is white |
| C124 | as C121, options and file names (`os.path.splitext` transcribed) | cases on the text of `--invert`; splitting at the last slash and dot |
| C125 | `drawTargetFeatures` of the three finders (Model/FeatureDrawing.v); images are places in memory, what OpenCV draws is a parameter | the steps of drawing on a copy or in place; the labelled indices against the order of the target points (C55) |
| C126 | `target_finder_tests.cpp` (Model/FinderTest.v) with `std::stoi` | splitting a text into blanks, sign, digits and the rest; cases on the finder's outcome |
| C127 | `createPoints` and `operator==` of the circle grid in doubles (`Model/FloatCode.v`) | a whole multiple of a double is exact when subnormal, so the error is relative everywhere; rounding is monotone |
| C128 | the lines that the loops of C65 to C67 write about each image (`Model/ImageText.v`) | a loop that writes is the loop and, beside it, the lines of its rounds; each round that ends well writes what its image deserves; counting along the selection of used images |

What cannot be expressed: image processing proper (OpenCV detection of circles and
markers), convergence of the Ceres solver and ROS timing. These enter as oracles:
functions over which every theorem quantifies.

## 5. What is modelled and what is not

| source | model |
|---|---|
| rct_optimizations: `ceres_math_utilities.h`, `eigen_conversions`, `types.h` | `Model/Pose`, `Model/Projection`, `Base/Geom`, `Model/Equality` |
| `extrinsic_hand_eye` | `Model/HandEye`, `Model/Solver`, `Model/BlockSolver` |
| `extrinsic_multi_static_camera`, `..._only`, `..._wrist_only`, `multi_camera_pnp` | `Model/MultiCamera` |
| `camera_intrinsic` | `Model/Intrinsic` |
| `pnp` | `Model/Pnp` |
| `circle_fit` | `Model/CircleFit` |
| `dh_chain` | `Model/DhChain` |
| `dh_chain_kinematic_calibration` | `Model/Kinematic` |
| `covariance_analysis`, `covariance_types.h` | `Model/Covariance`, the texts in `Model/CovReport` |
| the cost functors of all of these on `ceres::Jet` | `Model/Jet`, `Model/Functors` |
| `local_parameterization.h` | `Model/LocalParam` |
| `maximum_likelihood.h` | `Model/MaxLikelihood` |
| `validation/*` | `Model/Homography`, `Model/Projection`, `Model/IntrinsicValidation`, `Model/NoiseQualification`, `Model/Accumulator` |
| `eigen.h` and `writePose`, `loadPose` as text | `Model/NumberText`, `Model/PoseText` |
| projection, thresholds, mean and standard deviation, correlations, points of the circle grid in machine numbers | `Model/FloatCode` |
| `serialization/*` | `Model/Yaml`, `Model/Serialization` |
| rct_image_tools: targets | `Model/Targets` |
| `circle_detector` | `Model/CircleDetector` (contours and moments are oracles) |
| `modified_circle_grid_finder` | `Model/CircleGridFinder` |
| `aruco_finder`, `charuco_finder` | `Model/Targets` (the part after detection) |
| rct_ros_tools: `parameter_loaders`, `loader_utils` | `Model/Loaders` |
| `target_loader_plugins` | `Model/Plugins` |
| `data_set` | `Model/DataSet`, `Model/CorrDataSet` |
| `command_line_cal` | `Model/Collector` |
| rct_common: `print_utils.h` | `Model/Print`, `Model/ParamText`, `Model/PrintText` |
| rct_image_tools: `image_utils.h` | `Model/ExampleTools` (`getReprojections`; drawing is an oracle) |
| rct_examples: hand-eye, validation and noise tools, `camera_on_wrist.cpp`, `hand_eye_calibration_analysis.h` | `Model/ExampleTools` (from the loaded parameters on); their text is in `Model/ToolText`, that of the validation and noise tools in `Model/CheckText`; what they say about single images is in `Model/ImageText`, for runs that reach the end of the loop |
| `intrinsic_calibration.cpp`, `solve_pnp.cpp` | `Model/CvTools` (likewise) |
| `multi_static_camera_extrinsic.cpp`, `multi_static_camera_multi_step_extrinsic.cpp`, `solve_multi_camera_pnp.cpp` | `Model/CameraTools` (likewise; drawing and display are oracles) |
| `kinematic_calibration.cpp` | all; `optimize` prints parameter names and the progress of Ceres, which is an arbitrary text here |
| `covariance_types.h` text | modelled; how numbers are written is a parameter |
| rct_optimizations_tests: `utilities`, `pose_generator`, `observation_creator`, `dh_chain_observation_creator` | `Model/Simulation` (random numbers are oracles) |
| `script/calibration_target.py` | modelled (TargetScript.v) with real numbers: shapes, page, options, file names; outlines of width 0, the font and how reportlab renders files are not |
| `drawTargetFeatures`, `renderObservations`, `drawDetectedCircles` | `Model/FeatureDrawing` (what is drawn and where; pixels are a parameter, the outlines of contours are left out) |
| `target_finder_tests.cpp` | `Model/FinderTest` |
| unit tests proper | not modelled |

Simplifications that apply to whole files:

* Cost functors are evaluated at `double`, except in C83 and C84, where they are also evaluated on jets. A jet's value is
  a real number; its derivatives may be infinite or not numbers.
* `rotation()` of an isometry is its linear part.
* YAML scalars are values, except in C104 to C106: there the decimal text that yaml-cpp writes and reads is modelled.
* Narrowing from double to float is not modelled.
* Image files, YAML text and the file system are arbitrary functions (a record `codec`).
* In C57 an interrupted image or pose file is assumed not to read as an image or a pose. C105 shows that this is not quite
  so for pose files. C106 makes no such assumption for pose files and the index, whose characters it models; it assumes that
  the image format refuses cut pictures, that the files written before are complete, and that no file has a cut name of an
  image. The quaternion of a pose is computed exactly there and then rounded.
* Rounding is ignored everywhere but in C97 to C101, in C104 to C106, and for printed numbers in C112 and C113.

## 6. Findings

Where the code does not do what a user would expect. Each is a theorem, or follows
from one; the theorem is named.

Wrong results:

* Both `projectPoint` overloads disagree behind the camera, because of a misplaced
  parenthesis in a guard (`C07_overloads_agree_refuted`).
* PnP can report no error at all for a pose with the target behind the camera, although the
  image is perfect (`C77_no_error_behind_the_camera`).
* If the robot only turns about one point, a hand-eye calibration that sees the target mirrored
  behind the camera has no error either (`C78_turning_about_a_point_has_a_mirror_image`).
* A target whose points lie on one line is accepted, although its pose is not determined and the target may be
  reported turned over without any error (`C114_line_pictures_undetermined`, `C114_pnp_case`).
* The kinematic calibration example leaves two offsets of the first joint free that no measurement
  determines. In every optimum they are zero, whatever the positioner is
  (`C81_example_reports_no_first_offsets`).
* In kinematic calibrations one number is the expected deviation of offsets that are lengths and of offsets that are angles,
  and it competes with errors in pixels. So the result depends on the unit of length, whatever deviation is chosen for the new unit, and on
  the size of the pictures (`C115_unit_refuted`, `C115_resized_refuted`).
* The position error of a measured pose in a kinematic calibration is that of a pose times the inverse of another, so it depends on
  where the origin of the camera frame is put (`C115_camera_origin_refuted`).
* Covariance reports of hand-eye, multi-static-camera and intrinsic calibration swap
  the names of rotation and translation (`C20_*_refuted`).
* A hand-eye result read back from YAML has roll and yaw swapped
  (`C45_round_trip_refuted`).
* `KinematicObservation` equality compares the correspondences with themselves
  (`C46_kinematic_refuted`).
* The `DHChain` constructor with offsets forgets joint names and limits
  (`C12_keeps_names_and_limits_refuted`).
* `multi_static_camera_extrinsic` prints as "CAMERA 0 TO TARGET" the pose in the first camera that sees
  the image (`C113_camera_0_to_target_refuted`).
* `multi_static_camera_multi_step_extrinsic` numbers the images that all cameras see and prints this number
  as that of the image (`C113_image_titles_refuted`).
* The diagonal of the correlation matrix reports 1 for a standard deviation below
  epsilon (`C16_diagonal_is_stdev_refuted`).
* The circle fit reports the covariance of the square root of the radius as that of
  the radius (`C54_radius_covariance_refuted`).
* `poseCalToEigen` is not orthogonal for tiny rotation vectors
  (`C02_always_rigid_refuted`, `C31_relative_poses_refuted`).
* The seed of a joint is ignored after the first random number in the process
  (`C51_seed_decides_value_refuted`).
* Camera-only calibration without images returns every camera at the base
  (`C32_first_camera_fixed_refuted`).
* `extractKeyPoints` orders mirrored or upside down grids wrongly, and quarter turns
  when `rows` divides `cols - 1` (`C40_ordered_refuted`, `C40_quarter_turn_refuted`).
  It looks for the large circle in the wrong places when a grid that is not square is
  listed transposed (`C40_transposed_refuted`).
* The file and parameter loaders of poses disagree on non-unit quaternions
  (`C43_loaders_agree_refuted`); the parameter loaders refuse integers (`C43_integers`).
* Custom labels of a hand-eye problem are lost in YAML (`C44_labels_lost`).
* A homography with a vanishing last entry cannot be represented
  (`C24_origin_must_be_seen`).
* The grid sampler repeats indices on single row or column targets
  (`C23_grid_distinct_refuted`); the random one draws with replacement
  (`C23_random_may_repeat`).
* A kinematic chain without joints adds placeholder names to the report
  (`C53_reported_names_refuted`).
* A circle grid plugin with a negative number of rows wraps around (`C59_circle_grid`).
* The noise tool reads only the first of the listed images, because the image is a
  static variable (`C66_own_image_refuted`, `C66_first_image_only`).
  Hence all its pose estimations are the same, and the noise it reports is zero whatever the
  other images show (`C118_spread_is_seen_refuted`, `C118_spread_is_seen_partial`).
* `solve_pnp` prints OpenCV's pose although OpenCV reports that it found none
  (`C68_opencv_failure_is_reported_refuted`).
* `multi_static_camera_multi_step_extrinsic` reports all cameras at the base if no image
  is seen by all of them (`C71_no_common_image_refuted`), and shows the wrong pictures if
  some image is not (`C72_step_tool_shows_refuted`).
* The measurement file of the kinematic example may lack joint positions, or be any
  scalar (`C73_only_written_refuted`, `C73_accepted`), and a quaternion that is not of
  unit length gives a pose that is not rigid (`C73_rigid_refuted`).
* Pose generators return no pose at all (a singular matrix, or not numbers in C++) when the target is seen
  along the x axis of its frame (`C88_rigid_refuted`).
* `RandomZRotPoseGenerator` draws angles but does not turn the poses (`C89_turned_refuted`,
  `C89_unturned_partial`).
* Simulated cameras look past a target that is not at the origin: its position is applied twice
  (`C90_looks_refuted`).
* `perturbPose` uses uniform noise, though it documents standard deviations, and the same noise in
  every call (`C92_same_small_move`).
* `perturbDHChain` forgets names and limits (`C93_limits_refuted`, `C93_names_refuted`).
* The centre of a simulated target that is not square has rows and columns exchanged
  (`C94_center_refuted`, `C94_center_value`).
* Cartesian observations of two chains leave out the transform between their bases, so that the true
  mounts do not fit them (`C95_fits_refuted`).
* Thresholds that should be whole numbers can come out just below them, which a comparison with whole intensities
  rounds down: from 0 to 22 in steps of one, the threshold 15 is too small (`C99_whole_step_missed`). Those of the default
  parameters are exact (`C99_example`).
* Correlations can be slightly above one (`C101_above_one`).

Aborts, undefined behaviour and lost data:

* The validation and intrinsic tools read out of bounds or abort when no image shows
  the target, and the intrinsic tool when there is no image
  (`C65_no_target_is_reported_refuted`, `C67_no_images_is_reported_refuted`,
  `C67_no_target_is_reported_refuted`).

* One image that cannot be located aborts the intrinsic calibration
  (`C33_skips_failed_images_refuted`, `C33_failed_image_aborts`), so do an empty
  image and no images (`C33_empty_image_aborts`, `C33_no_images_aborts`).
* Negative mask indices are accepted or abort (`C14_out_of_range_throws_refuted`,
  `C14_negative_index_aborts`).
* `MaximumLikelihood` compares only numbers of elements, not shapes
  (`C21_dimension_check_refuted`).
* `measureIntrinsicCalibrationAccuracy` underflows on an empty set
  (`C28_every_set_refuted`).
* `ExtrinsicCorrespondenceDataSet` with cameras of different numbers of images leaves
  entries uninitialised or writes out of bounds (`C42_counts_refuted`).
* Too few names given to `computeCovarianceResults` are read out of bounds
  (`C17_too_few_names`).
* Problems without observations abort or throw: hand-eye (`C05_empty_problem`), PnP
  (`C35_empty_aborts`), circle fit (`C22_no_observations`), a static camera that sees
  nothing (`C30_static_unused_camera_aborts`), kinematic calibration
  (`C48_empty_aborts`), virtual targets with fewer than two points
  (`C27_too_few_aborts`).
* `multi_static_camera_extrinsic` uses a data set that could not be loaded
  (`C70_missing_data_set_refuted`).
* The kinematic example aborts without measurements and with one that the positioner
  cannot reach (`C75_aborts_refuted`).
* PnP from a guess without rotation: the norm of a zero rotation vector has no derivatives
  on jets (0 times infinity), so no derivative of any residual is a number
  (`C84_pnp_refuted`, `C84_pnp_3D_refuted`). Ceres rejects such an evaluation.
* Kinematic calibration from a guess without rotation: rotation vectors up to the machine
  epsilon are ignored, so the derivatives by them are zero at the start and the solver cannot
  improve that rotation (`C84_kinematic_flat`, `C84_kinematic_refuted`).
* A contour that fits its ellipse perfectly divides by zero (`C56_circles_refuted`).
* Equality of joint vectors of different sizes fails an assertion (`C46`).
* An interrupted save can read back as an empty or shortened data set
  (`C57_first_save_refuted`, `C57_longer_refuted`).
* A pose file that was cut within its last number is read as another pose, which need not even be rigid
  (`C105_cut_refuted`, `C105_cut_not_rigid`). This happens when a data set is saved again and the save stops
  (`C106_changed_pose`). With up to 16 digits poses change when they are saved (`C104_sixteen_digits`).
* `saveToDirectory` reports success although nothing was written
  (`C41_silent_failure`); the collector's save request succeeds as well (`C50_save`).
* A `cv::Exception` of the target finder ends the collector and loses what was not
  saved (`C50_ends`).
* `perturbPose` with negative noise and `perturbDHChain` without noise are undefined behaviour
  (`C92_negative`, `C93_no_noise`).
* `toYAML` of an empty array throws an exception that is no `std::exception`
  (`C58_empty_array`).
* The target script cuts off dots wider than two inches (`C122_whole_refuted`), prints one intersection less per
  direction than asked for (`C123_as_many_as_asked_refuted`), and inverts with `--invert False`
  (`C124_invert_refuted`).
* Drawing the features of ArUco and ChArUco boards overwrites the image passed in (`C125_image_kept_refuted`,
  `C125_image_kept_charuco_refuted`). The calibration tools do this with the images of the data set, so that the
  pictures of their analyses contain the drawn markers; the collector draws on a copy.
* The program that tries the circle finder returns zero although no grid was found (`C126_status`).
* C128: the hand-eye tools add an image to the problem before they show it (camera_on_wrist_extrinsic.cpp:117-122,
  static_camera_extrinsic.cpp:111-116). If showing it throws, the user is warned about an image that is used nevertheless. The
  noise tool (see C66) warns of every image by number if the first one shows no target (`C128_noise`, `C128_hand_eye_refuted`).

Seen while reading, not modelled:

* The covariance of camera-only results and the target transforms of intrinsic
  results are never filled; `use_extrinsic_guesses` is never read.
* The target script scales a drawing by dpi/72 before it has reportlab draw a picture with that dpi, which may scale twice.
* mono16 images are saturated, not scaled, to 8 bits in the collector.
