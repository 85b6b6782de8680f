{"id": "C01", "title": "Pose vector and matrix describe the same motion", "statement": "Transforming a point with a Pose6d (poseTransformPoint) gives exactly the point obtained by converting the Pose6d with poseCalToEigen and applying the resulting transform. So the transform returned to the user is the one the optimizer evaluated, including next to the zero-rotation branch.", "quantifier": "every Pose6d (any rotation vector, any translation) and every 3-D point", "why_tests_cant": "The two code paths switch formula at a rotation magnitude threshold; a test samples a few rotations and would miss a disagreement at or near the switch.", "anchors": ["rct_optimizations/include/rct_optimizations/ceres_math_utilities.h: transformPoint, poseTransformPoint", "rct_optimizations/src/rct_optimizations/eigen_conversions.cpp: poseCalToEigen"]}
{"id": "C02", "title": "poseCalToEigen returns a rigid transform", "statement": "The linear part of poseCalToEigen(p) is a proper rotation (orthonormal, determinant +1) exactly when the rotation vector is zero or its squared norm exceeds machine epsilon; for every other pose each entry of R^T R, and det R, is within machine epsilon of a rotation's value, so inverse() and composition behave as for rigid motions up to that bound.", "quantifier": "every Pose6d", "why_tests_cant": "Non-orthonormality appears only for tiny non-zero rotation vectors, which example tests never use.", "anchors": ["rct_optimizations/src/rct_optimizations/eigen_conversions.cpp: poseCalToEigen"]}
{"id": "C03", "title": "Pose conversion round trip", "statement": "For a rigid transform T, poseCalToEigen(poseEigenToCal(T)) = T exactly unless the rotation is a non-zero one with squared angle at most machine epsilon, in which case the translation is exact and every matrix entry is within machine epsilon. poseEigenToCal returns a rotation vector of norm at most pi, and a vector of norm below pi (above the threshold) survives the conversion to a matrix and back.", "quantifier": "every rigid transform (every rotation matrix including rotations by pi, every translation)", "why_tests_cant": "Rotation to angle-axis has several branches (trace sign, largest diagonal entry, sign of the scalar part); tests check identity and one 90 degree rotation.", "anchors": ["rct_optimizations/src/rct_optimizations/eigen_conversions.cpp: poseEigenToCal, poseCalToEigen"]}
{"id": "C04", "title": "Hand-eye cost measures the physical reprojection error", "statement": "The 2D-3D hand-eye residual for an observation equals the pixel projection of the target point mapped through camera_mount_to_camera^-1 * to_camera_mount^-1 * to_target_mount * target_mount_to_target, minus the observed pixel; the 3D-3D residual is the same chain without the projection. It is zero exactly when the observation is the ideal one. Mount poses may be any rigid transforms except rotations by a non-zero angle below 1.5e-8 rad, where the chain holds with the stored pose vectors instead (see C03).", "quantifier": "every pair of rigid mount poses, every pair of optimization variables, every correspondence and every camera", "why_tests_cant": "A wrong frame order or inverse cancels for identity or symmetric test poses; the claim must hold for every configuration.", "anchors": ["rct_optimizations/src/rct_optimizations/extrinsic_hand_eye.cpp: ObservationCost2D3D, ObservationCost3D3D, getTargetPointInCamera"]}
{"id": "C05", "title": "Hand-eye optimization rejects targets behind the camera", "statement": "optimize(ExtrinsicHandEyeProblem2D3D) throws std::runtime_error if and only if some correspondence, at the initial guess, lies at or behind the camera plane (z <= 0 in the camera frame); otherwise it runs the solver and returns a result whenever the covariance can be computed. The 3D-3D version never rejects. A problem with no correspondence at all ends in a CovarianceException. Guesses and mount poses are rigid, without non-zero rotations below 1.5e-8 rad.", "quantifier": "every problem: any number of observations and correspondences, any guess", "why_tests_cant": "The rejection must fire for one bad point anywhere among arbitrarily many observations.", "anchors": ["rct_optimizations/src/rct_optimizations/extrinsic_hand_eye.cpp: isPointVisible, optimize"]}
{"id": "C06", "title": "Hand-eye result reports the solver's final state in the user's frames", "statement": "Whatever the solver does, the result's transforms are the solver's final variables converted back to target_mount_to_target and camera_mount_to_camera (the inverse of the internally optimized camera pose), so reprojecting with the returned transforms yields the final residuals (when the final camera rotation is a proper one, C02); the reported costs are the solver's costs divided by the number of residuals; if the solver does not move, the returned transforms equal the guesses.", "quantifier": "every problem with rigid guesses and every solver outcome", "why_tests_cant": "Tests only observe converged solves near the truth; a wrong inverse or frame on the way out must be excluded for every solver outcome.", "anchors": ["rct_optimizations/src/rct_optimizations/extrinsic_hand_eye.cpp: optimize", "rct_optimizations/include/rct_optimizations/extrinsic_hand_eye.h"]}
{"id": "C07", "title": "The two projection overloads agree", "statement": "projectPoint on a raw array and projectPoint on an Eigen vector return the same pixel for the same camera and point.", "quantifier": "every camera intrinsics and every 3-D point (in front of, on and behind the camera plane)", "why_tests_cant": "The overloads differ in a guard on z; tests only project points in front of the camera.", "anchors": ["rct_optimizations/include/rct_optimizations/ceres_math_utilities.h: projectPoint (both overloads)"]}
{"id": "C08", "title": "Projection is the pin-hole model", "statement": "For a point with z above the divide guard both overloads give (fx*x/z + cx, fy*y/z + cy); the pixel is unchanged when the point is scaled along its viewing ray, and with non-zero focal lengths equal pixels imply equal viewing rays.", "quantifier": "every camera with non-zero focal lengths and every point in front of the camera", "why_tests_cant": "Scale invariance and injectivity are universal statements over a continuum.", "anchors": ["rct_optimizations/include/rct_optimizations/ceres_math_utilities.h: projectPoint"]}
{"id": "C09", "title": "DH link transform is the classical DH matrix and rigid", "statement": "createRelativeTransform(q, offsets) equals Trans_z(d) Rot_z(theta) Trans_x(r) Rot_x(alpha) with offsets added to the parameters and the joint value added to d for a linear and to theta for a revolute joint; it is always a rigid transform.", "quantifier": "every DH parameter vector, offset vector, joint value and joint type", "why_tests_cant": "Order of the elementary motions and the joint/parameter association must hold for every value.", "anchors": ["rct_optimizations/include/rct_optimizations/dh_chain.h: DHTransform::createRelativeTransform"]}
{"id": "C10", "title": "Forward kinematics composes the links and validates sizes", "statement": "getFK throws exactly when there are more joint values than links or than offset rows, or a used joint has an unknown type; otherwise it returns base_offset * T_1 * ... * T_n for the n given joint values, it is rigid when the base offset is, and extending the joint vector by one right-multiplies by that link's transform.", "quantifier": "every chain length, joint vector, offset matrix and base offset", "why_tests_cant": "The product is over an unbounded number of links; error conditions involve all size combinations.", "anchors": ["rct_optimizations/include/rct_optimizations/dh_chain.h: DHChain::getFK", "rct_optimizations/src/rct_optimizations/dh_chain.cpp: getRelativeTransform"]}
{"id": "C11", "title": "Baking DH offsets into a chain preserves its kinematics", "statement": "DHChain(chain, offsets).getFK(q) equals chain.getFK(q, offsets) for every joint vector, and the new chain has the same degrees of freedom, joint types and base offset.", "quantifier": "every chain, offset matrix with one row per link, and joint vector", "why_tests_cant": "Must hold for every chain length and joint type.", "anchors": ["rct_optimizations/src/rct_optimizations/dh_chain.cpp: DHChain(const DHChain&, const MatrixX4d&)", "rct_optimizations/include/rct_optimizations/dh_chain.h: getFK"]}
{"id": "C12", "title": "Baking DH offsets keeps joint names and limits", "statement": "The chain built from another chain and DH offsets keeps each joint's name and min/max limits, so parameter labels and random poses of the calibrated chain match those of the original.", "quantifier": "every chain and offset matrix", "why_tests_cant": "No test inspects labels or limits of the derived chain; the claim is about all chains.", "anchors": ["rct_optimizations/src/rct_optimizations/dh_chain.cpp: DHChain(const DHChain&, const MatrixX4d&), getParamLabels, createRandomJointValue"]}
{"id": "C13", "title": "DH masks, labels and parameter storage line up", "statement": "For a dof x 4 boolean mask, createDHMask lists exactly the storage offsets (column-major) of the true entries, without duplicates and all below 4*dof; the label at each offset produced by constructParameterLabels names that same joint and DH parameter.", "quantifier": "every chain length and every mask", "why_tests_cant": "Row-major/column-major confusion is invisible for symmetric masks and for one-joint chains.", "anchors": ["rct_optimizations/include/rct_optimizations/dh_chain_kinematic_calibration.h: createDHMask, constructParameterLabels"]}
{"id": "C14", "title": "Masked parameters are exactly the frozen ones", "statement": "addSubsetParameterization throws if some listed index is outside the block; otherwise after it returns exactly the listed elements of each block are held constant (the whole block if all are listed) and every other element stays free, whatever the order or repetition of the list.", "quantifier": "every problem (any number of blocks and sizes) and every mask map with arbitrary integer indices", "why_tests_cant": "Duplicates, order, negative and out-of-range indices give unboundedly many index lists.", "anchors": ["rct_optimizations/include/rct_optimizations/local_parameterization.h: addSubsetParameterization"]}
{"id": "C15", "title": "Quaternion update stays on the unit sphere and is a group action along each direction", "statement": "EigenQuaternionPlus maps a unit quaternion and any increment to a unit quaternion, leaves it unchanged for a zero increment, adds increments along a fixed direction, and reaches every unit quaternion.", "quantifier": "every unit quaternion and every 3-vector increment", "why_tests_cant": "Drift off the sphere and unreachable states are properties of all inputs and all update sequences.", "anchors": ["rct_optimizations/include/rct_optimizations/local_parameterization.h: EigenQuaternionPlus"]}
{"id": "C16", "title": "Correlation matrix is a correlation matrix", "statement": "For a covariance matrix, computeCorrelationsFromCovariance throws exactly when it is not square; otherwise its diagonal holds each parameter's standard deviation, its off-diagonal entries are the covariance divided by both standard deviations, it is symmetric and the off-diagonal magnitudes are at most 1.", "quantifier": "every matrix size and every symmetric positive semi-definite matrix", "why_tests_cant": "Involves zero and near-zero variances at any position in a matrix of any size.", "anchors": ["rct_optimizations/src/rct_optimizations/covariance_analysis.cpp: computeCorrelationsFromCovariance"]}
{"id": "C17", "title": "Every parameter pair is reported once with its own names", "statement": "computeCovarianceResults on an n x n matrix with n names reports n standard deviations in order, and for every pair i<j exactly one correlation coefficient and one covariance, in row-major order, whose names are those of rows i and j and whose values are the matrix entries.", "quantifier": "every n, matrix and name list", "why_tests_cant": "Index bookkeeping over all n; tests use three parameters.", "anchors": ["rct_optimizations/src/rct_optimizations/covariance_analysis.cpp: computeCovarianceResults"]}
{"id": "C18", "title": "Covariance labels follow the unmasked parameters", "statement": "computeCovariance reports exactly the unmasked elements of the selected blocks, in block then element order, each under its own label, with the matrix being the corresponding rows and columns of the solver's covariance matrix; it throws when the number of blocks and name entries differ or some block's label count differs from its size.", "quantifier": "every list of blocks, block sizes, label map, mask map and solver covariance", "why_tests_cant": "Offsets accumulate across arbitrary many blocks with arbitrary masks.", "anchors": ["rct_optimizations/src/rct_optimizations/covariance_analysis.cpp: computeCovariance"]}
{"id": "C19", "title": "Correlation filter is sound, complete and ordered", "statement": "getCorrelationCoeffOutsideThreshold returns precisely the stored correlation coefficients with magnitude strictly above the threshold, each as many times as stored, in order of non-increasing magnitude.", "quantifier": "every stored list and threshold", "why_tests_cant": "Universal over list contents and order.", "anchors": ["rct_optimizations/include/rct_optimizations/covariance_types.h: getCorrelationCoeffOutsideThreshold"]}
{"id": "C20", "title": "Calibration covariance labels name the quantity they sit on", "statement": "In the covariance reports of the pose-vector based optimizations, the label attached to each optimized scalar (x, y, z, rx, ry, rz) names that scalar.", "quantifier": "every problem of the hand-eye, multi-camera, and intrinsic calibrations", "why_tests_cant": "Labels are only strings; no test relates them to the storage layout, and the claim must hold for every problem.", "anchors": ["rct_optimizations/src/rct_optimizations/extrinsic_hand_eye.cpp: optimize", "rct_optimizations/src/rct_optimizations/extrinsic_multi_static_camera.cpp: optimize", "rct_optimizations/src/rct_optimizations/camera_intrinsic.cpp: optimize", "rct_optimizations/src/rct_optimizations/pnp.cpp: optimize", "rct_optimizations/include/rct_optimizations/types.h: Pose6d"]}
{"id": "C21", "title": "Maximum-likelihood prior", "statement": "The MaximumLikelihood constructor throws when mean and standard deviation do not have the same dimensions; otherwise each residual is (parameter - mean)/stdev of the same element, and for non-zero standard deviations all residuals vanish exactly when the parameters equal the mean.", "quantifier": "every dimensions and every parameter, mean and stdev values", "why_tests_cant": "Quantifies over all matrix shapes.", "anchors": ["rct_optimizations/include/rct_optimizations/maximum_likelihood.h: MaximumLikelihood"]}
{"id": "C22", "title": "Circle residual is zero exactly on the circle", "statement": "The circle-fit residual for a point vanishes iff the point is at distance r from the centre, and is the same in the single-block and three-block forms. The solver gets the squared radius less the squared distance from the centre for every point; the reported circle is its final one and the reported costs are its costs per point. The reported radius is never negative and equals the initial radius if the solver does not move.", "quantifier": "every centre, radius parameter and observed point, and every solver outcome", "why_tests_cant": "Continuum of inputs and of solver outcomes.", "anchors": ["rct_optimizations/include/rct_optimizations/circle_fit.h: CircleDistCost", "rct_optimizations/src/rct_optimizations/circle_fit.cpp: optimize"]}
{"id": "C23", "title": "Homography samplers return usable sample indices", "statement": "For an accepted target size the grid sampler returns four pairwise distinct indices, the corners of the grid, all below rows*cols*stride, for a stride of at least one; the random sampler returns n_samples indices below the number of correspondences, and rejects fewer than four samples or more samples than correspondences.", "quantifier": "every rows/cols/stride and every random generator outcome", "why_tests_cant": "All grid sizes and all random draws.", "anchors": ["rct_optimizations/src/rct_optimizations/validation/homography_validation.cpp: GridCorrespondenceSampler, RandomCorrespondenceSampler"]}
{"id": "C24", "title": "A perfect planar observation has zero homography error", "statement": "If image and target points are related by a homography under which the target origin has an image, then for sampled target points of which no three are collinear calculateHomographyError returns zero for every correspondence; conversely each sampled correspondence always has zero error when the linear system is solved exactly. It throws when there are fewer than twice as many correspondences as samples.", "quantifier": "every homography, every correspondence set and every sampler output", "why_tests_cant": "Continuum of homographies and point layouts.", "anchors": ["rct_optimizations/src/rct_optimizations/validation/homography_validation.cpp: calculateHomographyError"]}
{"id": "C25", "title": "Line-plane intersection", "statement": "computeLinePlaneIntersection throws exactly when the line direction's dot product with the normal is below epsilon in magnitude; otherwise the returned point lies on the plane and on the line and is the only such point.", "quantifier": "every plane, line and epsilon>0", "why_tests_cant": "Continuum of configurations.", "anchors": ["rct_optimizations/src/rct_optimizations/validation/projection.cpp: computeLinePlaneIntersection"]}
{"id": "C26", "title": "Back-projection inverts projection", "statement": "For a target point with z=0 in front of a camera that does not see the target edge-on, projecting it to a pixel and back-projecting with project3D returns the point; hence compute3DProjectionError is zero for perfect observations, and lists the errors of all observations in order.", "quantifier": "every camera, rigid camera pose, target point and list of observations", "why_tests_cant": "Continuum of poses; concatenation over any number of observations.", "anchors": ["rct_optimizations/src/rct_optimizations/validation/projection.cpp: project3D, compute3DProjectionError"]}
{"id": "C27", "title": "Virtual-target split uses every feature once", "statement": "measureVirtualTargetDiff fits its two virtual targets to two disjoint groups that together contain every correspondence of the observation exactly once, and throws when either fit does not converge or its residual exceeds the threshold.", "quantifier": "every correspondence set (any size) and every PnP outcome", "why_tests_cant": "Any size, odd or even, and any solver behaviour.", "anchors": ["rct_optimizations/src/rct_optimizations/validation/camera_intrinsic_calibration_validation.cpp: measureVirtualTargetDiff"]}
{"id": "C28", "title": "Intrinsic validation handles every observation set", "statement": "measureIntrinsicCalibrationAccuracy, for every observation set, either throws or returns the mean and standard deviation over all observations, never reading outside its inputs.", "quantifier": "every observation set including the empty one", "why_tests_cant": "The empty set triggers unsigned wrap-around; sizes are unbounded.", "anchors": ["rct_optimizations/src/rct_optimizations/validation/camera_intrinsic_calibration_validation.cpp: measureIntrinsicCalibrationAccuracy"]}
{"id": "C29", "title": "Noise statistics do not depend on quaternion sign or order", "statement": "The matrix from which the mean orientation is extracted is unchanged when any quaternion is replaced by its negative (same rotation) and when the list is permuted; position means and standard deviations use exactly the converged solutions.", "quantifier": "every list of quaternions, sign choice, permutation and PnP outcome", "why_tests_cant": "Exponentially many sign choices and orders.", "anchors": ["rct_optimizations/src/rct_optimizations/validation/noise_qualification.cpp: computeQuaternionMean, computeQuaternionStats, qualifyNoise2D"]}
{"id": "C30", "title": "Multi-camera costs measure the physical reprojection error", "statement": "The residuals of the multi-static-camera, camera-only (free and fixed first camera), wrist-only and multi-camera PnP optimizations equal the pixel projection of the target point through the composed rigid chain base/camera/wrist/target minus the observed pixel.", "quantifier": "every rigid pose assignment, point and camera", "why_tests_cant": "Frame-order errors cancel in symmetric examples.", "anchors": ["rct_optimizations/src/rct_optimizations/extrinsic_multi_static_camera.cpp", "rct_optimizations/src/rct_optimizations/extrinsic_multi_static_camera_only.cpp", "rct_optimizations/src/rct_optimizations/extrinsic_multi_static_camera_wrist_only.cpp", "rct_optimizations/src/rct_optimizations/multi_camera_pnp.cpp"]}
{"id": "C31", "title": "Wrist-only calibration keeps the cameras' relative poses", "statement": "For any solver outcome the returned camera poses have the same pairwise relative transforms as the given ones.", "quantifier": "every number of cameras, guesses and solver outcome", "why_tests_cant": "Unbounded number of cameras and arbitrary solver outcomes.", "anchors": ["rct_optimizations/src/rct_optimizations/extrinsic_multi_static_camera_wrist_only.cpp: optimize"]}
{"id": "C32", "title": "Fixing the first camera fixes it", "statement": "With fix_first_camera the camera-only calibration returns the first camera at its guess for every solver outcome; with no solver motion all cameras are returned at their guesses.", "quantifier": "every problem (any number of cameras and images, including none) and solver outcome", "why_tests_cant": "Arbitrary sizes, including empty image sets.", "anchors": ["rct_optimizations/src/rct_optimizations/extrinsic_multi_static_camera_only.cpp: optimize"]}
{"id": "C33", "title": "Intrinsic calibration skips unusable images consistently", "statement": "Camera intrinsic calibration uses exactly the images whose initial pose estimation, started half a metre ahead with the target facing the camera, succeeds, and its covariance report only covers parameters that take part in the optimization.", "quantifier": "every image set and every pattern of PnP failures", "why_tests_cant": "Any subset of images may fail.", "anchors": ["rct_optimizations/src/rct_optimizations/camera_intrinsic.cpp: optimize, guessInitialPose, solvePnP"]}
{"id": "C34", "title": "Distortion model", "statement": "With all distortion coefficients zero the intrinsic cost is pin-hole projection error; in general the projection is the Brown-Conrady model with radial k1,k2,k3 and tangential p1,p2, and the principal point direction is undistorted for all coefficients.", "quantifier": "every intrinsic and distortion value and every point", "why_tests_cant": "Continuum of coefficients; a swapped tangential pair is invisible on symmetric points.", "anchors": ["rct_optimizations/src/rct_optimizations/camera_intrinsic.cpp: projectPoints2, CalibCameraIntrinsics"]}
{"id": "C35", "title": "PnP cost and result", "statement": "The PnP residual is the projection of camera_to_target * point minus the pixel; whatever the solver does the returned transform is rigid and is the one the final residual was evaluated with; if the solver does not move the guess is returned.", "quantifier": "every guess, observation and solver outcome", "why_tests_cant": "Continuum of poses and outcomes.", "anchors": ["rct_optimizations/src/rct_optimizations/pnp.cpp: SolvePnPCostFunc, optimize"]}
{"id": "C36", "title": "Target geometry of the modified circle grid", "statement": "The modified circle grid target has rows*cols points in the z=0 plane, pairwise distinct for non-zero spacing, neighbours spacing apart, row by row from the top row to the row through the origin, and the origin circle is first of the last row.", "quantifier": "every rows, cols and spacing", "why_tests_cant": "All grid sizes.", "anchors": ["rct_image_tools/src/rct_image_tools/modified_circle_grid_target.cpp: createPoints"]}
{"id": "C37", "title": "ArUco and ChArUco correspondences match IDs", "statement": "createCorrespondences pairs every detected feature of a marker with the target point of the same marker ID and corner index, produces no other pair, and fails with an exception if a detected ID is not on the target.", "quantifier": "every detection result and every board", "why_tests_cant": "Any subset of markers in any order, duplicate IDs and foreign IDs.", "anchors": ["rct_image_tools/src/rct_image_tools/aruco_grid_target.cpp", "rct_image_tools/src/rct_image_tools/charuco_grid_target.cpp", "rct_image_tools/src/rct_image_tools/aruco_finder.cpp"]}
{"id": "C38", "title": "Blob grouping is a partition and filters by repeatability", "statement": "The circle detector's grouping assigns every detected centre of every threshold image to exactly one group whose first member is within the inclusion radius and radius difference, reports one keypoint per group with at least minRepeatability members, and each keypoint is the mean of its group weighted by confidence and, the confidences being positive, lies within the inclusion radius of its group's first member.", "quantifier": "every sequence of threshold images and detected centres and every parameter setting", "why_tests_cant": "Unbounded detections; order dependent algorithm.", "anchors": ["rct_image_tools/src/rct_image_tools/circle_detector.cpp: detectKeyPoints"]}
{"id": "C39", "title": "Threshold sweep", "statement": "The binary thresholds used by the circle detector start at minThreshold, end at maxThreshold, are evenly spaced and number nThresholds; a single threshold is the midpoint; it throws when minRepeatability exceeds nThresholds.", "quantifier": "every parameter setting", "why_tests_cant": "All counts, including 0 and 1.", "anchors": ["rct_image_tools/src/rct_image_tools/circle_detector.cpp: applyThresholds"]}
{"id": "C40", "title": "Circle grid ordering puts the large circle on the origin", "statement": "For every target orientation the ordering step of the modified circle grid finder returns each detected centre exactly once, in the order of the target points, so that the large circle corresponds to the target's origin point.", "quantifier": "every grid size, every corner position of the large circle and both handednesses", "why_tests_cant": "Eight orientations times every grid size, including non-square.", "anchors": ["rct_image_tools/src/rct_image_tools/modified_circle_grid_finder.cpp: extractKeyPoints"]}
{"id": "C41", "title": "Data set parsing keeps images and poses paired", "statement": "parse returns a data set whose i-th image and i-th pose come from the same entry, in file order, containing exactly the entries whose image and pose both load, and reports failure exactly when the index is no list of entries with both names; saving a data set (non-empty images that PNG keeps, rigid poses, writable files) and parsing the directory returns the same images and poses.", "quantifier": "every entry list and every pattern of missing or malformed files", "why_tests_cant": "Any subset may be malformed; a one-sided skip would shift all later pairs.", "anchors": ["rct_ros_tools/src/data_set.cpp: parse, saveToDirectory, parseFromFile"]}
{"id": "C42", "title": "Correspondence data set bookkeeping", "statement": "ExtrinsicCorrespondenceDataSet stores for every camera and image whether the target was found, and its counts equal the numbers of found targets, for cameras with any number of images.", "quantifier": "every list of data sets and every pattern of detection failures", "why_tests_cant": "Cameras with differing image counts; arbitrary failure patterns.", "anchors": ["rct_ros_tools/src/data_set.cpp: ExtrinsicCorrespondenceDataSet"]}
{"id": "C43", "title": "Parameter loaders do not half-update", "statement": "loadPose and loadIntrinsics return true iff every required field is present and well-typed, and leave the output unchanged when they return false; both pose loaders give the same transform for the same fields.", "quantifier": "every parameter tree", "why_tests_cant": "All subsets of missing or ill-typed fields.", "anchors": ["rct_ros_tools/src/parameter_loaders.cpp: loadPose, loadIntrinsics"]}
{"id": "C44", "title": "YAML round trip of problems and building blocks", "statement": "Encoding then decoding vectors, rigid transforms, intrinsics, correspondences, observations and hand-eye problems returns the original value, except that a problem's report labels come back as the default ones; intrinsics, correspondences, observations and problems are refused when their map has the wrong size; a DH chain (which can only be read) has the written joints in order.", "quantifier": "every value of these types", "why_tests_cant": "Every rotation (including trace <= 0 branches) and every list length.", "anchors": ["rct_optimizations/include/rct_optimizations/serialization/eigen.h", "rct_optimizations/include/rct_optimizations/serialization/types.h", "rct_optimizations/include/rct_optimizations/serialization/problems.h"]}
{"id": "C45", "title": "YAML round trip of hand-eye results", "statement": "Encoding an ExtrinsicHandEyeResult and decoding it returns the same transforms.", "quantifier": "every result with rigid transforms", "why_tests_cant": "Only the problem types are tested; the error is invisible for rotations with roll = yaw.", "anchors": ["rct_optimizations/include/rct_optimizations/serialization/problems.h: convert<ExtrinsicHandEyeResult>"]}
{"id": "C46", "title": "Observation equality", "statement": "Two correspondences, observations, kinematic observations, measurements or hand-eye problems compare equal if and only if their poses or joints and their correspondence sets agree up to the relative tolerance 1e-12 (intrinsics exactly); two targets compare equal if and only if their sizes and points do.", "quantifier": "every pair of observations", "why_tests_cant": "Equality must discriminate every differing pair.", "anchors": ["rct_optimizations/include/rct_optimizations/types.h: Correspondence, Observation, KinematicObservation, KinematicMeasurement"]}
{"id": "C47", "title": "Kinematic calibration residuals vanish at the truth", "statement": "The 2D-3D and 6-D pose kinematic calibration residuals equal the projection (respectively pose difference) of the chain camFK * camera mount, target FK * target mount, and base-to-base transforms, minus the measurement; they vanish for perfect measurements, and the pose residual vanishes only if measured and predicted pose coincide.", "quantifier": "every pair of DH chains, joint vectors, offsets and mount transforms", "why_tests_cant": "Arbitrary chain lengths and poses.", "anchors": ["rct_optimizations/include/rct_optimizations/dh_chain_kinematic_calibration.h: DualDHChainCost2D3D, DualDHChainCostPose6D"]}
{"id": "C48", "title": "Kinematic calibration parameter blocks line up", "statement": "constructParameters, constructParameterLabels, constructParameterMasks and constructParameterNames describe the same eight blocks in the same order with matching sizes. Both optimizations start the solver at the guesses, give it the errors of the observations and the offset priors as residuals, hold exactly the masked elements (and chains without joints) constant, and report what the solver leaves in those blocks; masked offsets stay zero and masked poses at their guesses.", "quantifier": "every pair of chains (including fixed, zero-joint ones), masks and solver outcome", "why_tests_cant": "All chain sizes, including zero.", "anchors": ["rct_optimizations/include/rct_optimizations/dh_chain_kinematic_calibration.h", "rct_optimizations/src/rct_optimizations/dh_chain_kinematic_calibration.cpp"]}
{"id": "C49", "title": "Titles are printed centred", "statement": "printTitle prints three lines of equal width, at least the requested width, with the title exactly in the middle between at least three stars on either side.", "quantifier": "every title and width", "why_tests_cant": "All lengths and parities.", "anchors": ["rct_common/include/rct_common/print_utils.h: printTitle"]}
{"id": "C50", "title": "Calibration data collection stays paired", "statement": "After every history of received images and of requests to collect and save, the command line collector holds one pose per image; each pair is the transform of a successful request and the latest picture before it; a request adds both or neither; after a save, parsing the directory gives the pairs collected so far.", "quantifier": "every sequence of images, trigger and save requests and every outcome of conversion, target finder and transform lookup", "why_tests_cant": "Unbounded histories of service calls.", "anchors": ["rct_ros_tools/src/command_line_cal.cpp"]}
{"id": "C51", "title": "Random joint poses respect limits and seeds", "statement": "createUniformlyRandomPose returns one value per joint, inside that joint's limits; the random seed given to a joint decides the values drawn for it.", "quantifier": "every chain with ordered limits, every generator, every earlier call in the process", "why_tests_cant": "The generator is a hidden static shared by all joints, so the outcome depends on the whole call history.", "anchors": ["rct_optimizations/src/rct_optimizations/dh_chain.cpp: createRandomJointValue, createUniformlyRandomPose"]}
{"id": "C52", "title": "DH chain accessors report the links", "statement": "getDHTable, getJointTypes and getParamLabels list the parameters, types and labels of the links in order, and getRelativeTransform returns the transform of the indexed joint without offsets and throws for every index outside the chain.", "quantifier": "every chain and every index, negative ones included", "why_tests_cant": "All chain lengths and indices.", "anchors": ["rct_optimizations/src/rct_optimizations/dh_chain.cpp: getDHTable, getJointTypes, getParamLabels, getRelativeTransform"]}
{"id": "C53", "title": "Kinematic calibration reports the parameters it optimizes", "statement": "The labels printed before the optimization and the names in the covariance report of a kinematic calibration are exactly those of the parameters that are not held constant, each under the name of its joint and DH parameter or pose component.", "quantifier": "every pair of chains, masks and solver outcome", "why_tests_cant": "All chain lengths and all masks, including fully and partly masked blocks.", "anchors": ["rct_optimizations/src/rct_optimizations/dh_chain_kinematic_calibration.cpp: printOptimizationLabels, optimize", "rct_optimizations/include/rct_optimizations/covariance_analysis.h: computeCovariance"]}
{"id": "C54", "title": "Circle fit covariance is that of the reported circle", "statement": "The covariance report of a circle fit is the covariance of the reported centre x, centre y and radius, in this order, as the header documents.", "quantifier": "every set of observations, initial circle, solver outcome and covariance estimate", "why_tests_cant": "Depends on how the solver's variables map to the reported ones, for all values.", "anchors": ["rct_optimizations/include/rct_optimizations/circle_fit.h: CircleFitResult", "rct_optimizations/src/rct_optimizations/circle_fit.cpp: optimize"]}
{"id": "C55", "title": "Circle grid correspondences pair each circle with its target point", "statement": "The correspondences of a modified circle grid are one per target point, in order, each pairing the target point with the first feature under its index; a missing feature throws; the points found in an image come back paired with the target points in their order.", "quantifier": "every grid and every feature map", "why_tests_cant": "All grid sizes and all patterns of missing features.", "anchors": ["rct_image_tools/src/rct_image_tools/modified_circle_grid_target.cpp: createCorrespondences", "rct_image_tools/src/rct_image_tools/modified_circle_grid_finder.cpp: findTargetFeatures"]}
{"id": "C56", "title": "Circle filters accept exactly the circles they describe", "statement": "At each threshold the circle detector reports one centre for each contour that has at least five points, lies within the limits of every enabled filter (area, circularity, inertia ratio, convexity, colour) and deviates from its fitted ellipse by less than the allowed error; the centre, mean radius and a finite confidence, the inverse of the deviation, are those of its ellipse.", "quantifier": "every set of contours and every parameter setting", "why_tests_cant": "Every combination of filters and limits, and contours that fit their ellipse perfectly.", "anchors": ["rct_image_tools/src/rct_image_tools/circle_detector.cpp: findCircles"]}
{"id": "C57", "title": "An interrupted save is never read as something else", "statement": "If saving a data set for the first time is interrupted at any point, parsing the directory reports failure; if saving a longer version of an already saved data set is interrupted, parsing returns the old or the new pairs, each image with its own pose, missing at most the pair whose file was being written.", "quantifier": "every data set, every crash point between or within the writes of single files", "why_tests_cant": "A crash can happen after any prefix of the writes.", "anchors": ["rct_ros_tools/src/data_set.cpp: saveToDirectory, parseFromFile"]}
{"id": "C58", "title": "Parameters converted to YAML keep their keys and values", "statement": "toYAML succeeds exactly for structs whose members are booleans, integers, doubles, strings, non-empty arrays of one of these, or again such structs; the resulting node has exactly the same keys with the same values.", "quantifier": "every parameter tree", "why_tests_cant": "Arbitrary nesting and mixtures of types.", "anchors": ["rct_ros_tools/src/loader_utils.cpp: toYAML"]}
{"id": "C59", "title": "Target finder plugins are configured as written", "statement": "Initialising a target finder plugin from a configuration gives a finder for a target with the written numbers of rows and columns and the written dimensions (a negative number of rows or columns of a circle grid wraps around to an unsigned one, and zero fails an assertion); the circle detector gets either exactly the written parameters or, if any of them is missing or malformed, all the default ones of the library header; a missing or malformed target dimension is reported.", "quantifier": "every configuration tree", "why_tests_cant": "All subsets of missing, malformed or out-of-range fields.", "anchors": ["rct_ros_tools/src/target_loader_plugins.cpp: ModifiedCircleGridTargetFinderPlugin, CharucoGridTargetFinderPlugin, loadCircleDetectorParams"]}
{"id": "C60", "title": "Printed transforms and differences describe the transforms", "statement": "printTransform prints the translation, the roll, pitch and yaw (radians and degrees) and the unit quaternion in x, y, z, w order of the transform it is given; printTransformDiff prints the transform from the first to the second, the distance between their origins and the angle between their orientations in degrees; printOptResults prints the square roots of the two costs.", "quantifier": "every pair of rigid transforms, frame names and costs", "why_tests_cant": "All rotations, including half turns and gimbal lock, and both conventions of order.", "anchors": ["rct_common/include/rct_common/print_utils.h: printTransform, printTransformDiff, printOptResults"]}
{"id": "C61", "title": "The hand-eye tools use exactly the images that show the target", "statement": "The observations of the camera-on-wrist and static-camera tools are, in order, those of exactly the images in which the target is found and whose correspondences (at least twelve) pass the homography check, each with its own correspondences and tool pose; the images kept for the report are the same. Runtime errors on single images are skipped; any other exception ends the tool. Perfect pictures of a flat target pass the check.", "quantifier": "every data set, finder outcome, random generator and threshold", "why_tests_cant": "Every pattern of failing images.", "anchors": ["rct_examples/src/tools/camera_on_wrist_extrinsic.cpp", "rct_examples/src/tools/static_camera_extrinsic.cpp"]}
{"id": "C62", "title": "The hand-eye tools minimise and report pixel errors of the right frames", "statement": "The residuals the tools give to the solver are the pixel errors of all correspondences of the usable images, the camera moving with the tool (or the target moving with it for a static camera), and they report the transforms at which the solver ended. If every correspondence is where the calibrated camera sees it, all reported projection errors are zero. Without a data set or a usable image they end with an error.", "quantifier": "every data set, guess, solver outcome and finder", "why_tests_cant": "All frames and all motions.", "anchors": ["rct_examples/src/tools/camera_on_wrist_extrinsic.cpp", "rct_examples/src/tools/static_camera_extrinsic.cpp", "rct_examples/src/tools/hand_eye_calibration_analysis.h"]}
{"id": "C63", "title": "The hand-eye report compares with independent pose estimates", "statement": "analyzeResults prints the mean and standard deviation over the images of the distance and of the angle in degrees between the target pose predicted by the calibration and the one estimated from the image alone; all are zero exactly if all poses agree. More images than observations is an error.", "quantifier": "every problem, result, list of images and outcome of the pose estimations", "why_tests_cant": "All numbers of images and all poses.", "anchors": ["rct_examples/src/tools/hand_eye_calibration_analysis.h: analyzeResults, reproject"]}
{"id": "C64", "title": "The projection error report is the statistics of the errors", "statement": "The four numbers printed about the 3D projection errors are their mean, sample standard deviation, minimum and maximum.", "quantifier": "every list of errors", "why_tests_cant": "All lengths, including one and none.", "anchors": ["rct_examples/src/tools/hand_eye_calibration_analysis.h: analyze3DProjectionError"]}
{"id": "C65", "title": "The validation tool's verdict", "statement": "The intrinsic validation tool calls the calibration valid exactly if mean plus two standard deviations of the differences between the two halves of the target, over all images that show the target, is at most 1 mm and at most 0.05 degrees. Images with different numbers of correspondences, and no image that shows the target, end it with an error.", "quantifier": "every data set, transforms, intrinsics and outcome of the pose estimations", "why_tests_cant": "All numbers of images, including none.", "anchors": ["rct_examples/src/tools/camera_intrinsic_calibration_validation.cpp"]}
{"id": "C66", "title": "The noise tool estimates one pose per image", "statement": "The noise qualification tool makes one pose estimation for each listed image that shows the target, from the correspondences of that image.", "quantifier": "every list of image files and every finder outcome", "why_tests_cant": "Depends on state kept between the rounds of the loop.", "anchors": ["rct_examples/src/tools/noise_qualification_2d.cpp"]}
{"id": "C67", "title": "The intrinsic tool compares two calibrations of the same data", "statement": "The intrinsic calibration tool calibrates with OpenCV and with this library from the same correspondences, those of exactly the images that show the target, and from the same guess; it prints OpenCV's camera matrix and distortion as fx, fy, cx, cy and k1, k2, p1, p2, k3. Images on which finding fails are skipped, exceptions of OpenCV end it, and missing data (no data set, no images, no image with the target) ends it with an error.", "quantifier": "every data set, finder outcome and OpenCV outcome", "why_tests_cant": "Every pattern of failing images.", "anchors": ["rct_examples/src/tools/intrinsic_calibration.cpp"]}
{"id": "C68", "title": "The pose estimation tool compares two estimates of the same image", "statement": "solve_pnp estimates the pose with OpenCV and with this library from the same correspondences and the same pin-hole camera; OpenCV's rotation vector and translation become the rotation about that vector by its length and that translation. An image without the target ends it with an error, and a pose that OpenCV failed to find is not printed.", "quantifier": "every image, finder outcome and OpenCV outcome", "why_tests_cant": "All rotation vectors and all outcomes.", "anchors": ["rct_examples/src/tools/solve_pnp.cpp"]}
{"id": "C69", "title": "Reprojections are where the camera sees the target", "statement": "getReprojections returns, for every target point in order, the pixel at which a pin-hole camera at the given pose sees it. The camera-on-wrist example uses exactly the images on which the target finder returns.", "quantifier": "every pose, camera, point list and data set", "why_tests_cant": "All poses and all patterns of failing images.", "anchors": ["rct_image_tools/include/rct_image_tools/image_utils.h: getReprojections", "rct_examples/src/examples/camera_on_wrist.cpp"]}
{"id": "C70", "title": "The multi-camera tool uses each camera's own pictures", "statement": "multi_static_camera_extrinsic calibrates with, for every camera, exactly the pictures of that camera in which it finds the target, each with the tool pose recorded with it; it starts at the given guesses, the residuals are the pixel errors of these pictures, and it reports where the solver ended and at which cost per residual, each camera both in the base and relative to the first camera. A data set that cannot be loaded ends each of the three tools for several cameras with an error.", "quantifier": "every number of cameras and pictures, finder outcome and solver outcome", "why_tests_cant": "Every pattern of pictures that show the target.", "anchors": ["rct_examples/src/tools/multi_static_camera_extrinsic.cpp", "rct_examples/src/tools/multi_static_camera_multi_step_extrinsic.cpp", "rct_examples/src/tools/solve_multi_camera_pnp.cpp"]}
{"id": "C71", "title": "The multi-step tool uses the images all cameras see", "statement": "multi_static_camera_multi_step_extrinsic uses exactly the images in which all cameras find the target. Its first step finds the cameras and the target pose of each such image, starting at the guesses, and leaves the first camera at its guess if asked to; its second step moves all cameras by one common transform, so that their relative poses stay the same. The residuals are the pixel errors of these images, and each step reports its costs per residual. If there is no such image, it ends with an error.", "quantifier": "every number of cameras and pictures, finder outcome and solver outcomes", "why_tests_cant": "Every pattern of pictures that show the target.", "anchors": ["rct_examples/src/tools/multi_static_camera_multi_step_extrinsic.cpp"]}
{"id": "C72", "title": "The multi-camera tools show each image with its own points", "statement": "The reprojections that the three tools for several cameras show are those of exactly the images they use for it (seen by two or more cameras for multi_static_camera_extrinsic, by all cameras for the other two), drawn on a picture taken at that moment, at the pixels at which the camera that took it sees the target points, before and after a pose estimation with all cameras that see it.", "quantifier": "every number of cameras and pictures, finder outcome and solver outcomes", "why_tests_cant": "Every pattern of pictures that show the target.", "anchors": ["rct_examples/src/tools/multi_static_camera_extrinsic.cpp: reproject", "rct_examples/src/tools/multi_static_camera_multi_step_extrinsic.cpp: reproject", "rct_examples/src/tools/solve_multi_camera_pnp.cpp: reproject"]}
{"id": "C73", "title": "Kinematic measurement files are read as written", "statement": "Loading the measurement file of the kinematic calibration example gives one measurement per entry, in order, with the joint positions and the pose that the entry states, and every pose is rigid; a file that does not state them is refused with the exception for a bad file.", "quantifier": "every YAML file", "why_tests_cant": "All trees, with missing and malformed entries.", "anchors": ["rct_examples/src/examples/kinematic_calibration.cpp: loadMeasurements"]}
{"id": "C74", "title": "Kinematic comparison reports the errors of the estimate", "statement": "compareToMeasurements reports the mean and standard deviation, over all measurements, of the distance and of the angle between the measured target pose and the one that the calibrated chains and transforms predict at its joint positions; both means are zero exactly if all predictions agree. A measurement that a chain cannot reach is a runtime error.", "quantifier": "every pair of chains, rigid result and non-empty list of rigid measurements", "why_tests_cant": "All chains and all joint positions.", "anchors": ["rct_examples/src/examples/kinematic_calibration.cpp: compareToMeasurements"]}
{"id": "C75", "title": "The kinematic example compares calibrated and nominal kinematics", "statement": "The kinematic calibration example optimizes the same measurements twice from the guesses of the parameter server: once with the offsets of all joints but the last free, and once with the nominal positioner. The transform between the bases stays the identity and what is held has no offsets. It prints the error statistics of both results and by how many percent the first is better than the second. Files, guesses and measurements that cannot be used end it with an error.", "quantifier": "every file, guess, solver outcome and uninitialised memory", "why_tests_cant": "All measurements and solver outcomes.", "anchors": ["rct_examples/src/examples/kinematic_calibration.cpp: main, createTwoAxisPositioner, Stats"]}
{"id": "C76", "title": "Covariance texts list every entry", "statement": "The text of a covariance result has one line with both names and the value for every standard deviation, covariance and correlation coefficient, in order and under its heading. The correlation warning lists exactly the coefficients with a magnitude above the threshold, the largest first, or says that there are none.", "quantifier": "every covariance result with names on one line, every threshold and number format", "why_tests_cant": "All sizes and names.", "anchors": ["rct_optimizations/include/rct_optimizations/covariance_types.h: toString, printCorrelationCoeffAboveThreshold"]}
{"id": "C77", "title": "A pose estimate without error is the true pose", "statement": "If the correspondences are what a camera sees of a flat target at a pose, four of the points being in general position and the camera outside the plane of the target, then a PnP result with the target in front of the camera reports a final cost of zero exactly if it is that pose. For measured 3D points, three points that are not on a line suffice, without further condition.", "quantifier": "every pose, camera, list of points and solver that reports the cost of the point where it ends", "why_tests_cant": "Says that no other pose exists, over all poses.", "anchors": ["rct_optimizations/src/rct_optimizations/pnp.cpp: optimize", "rct_optimizations/include/rct_optimizations/ceres_math_utilities.h: projectPoint"]}
{"id": "C78", "title": "A hand-eye calibration without error is the true calibration", "statement": "If the observations are perfect, each with enough points (as for PnP) in front of the camera, and two of the motions of target mount relative to camera mount between observations turn about axes that are not parallel, then a hand-eye result reports a final cost of zero exactly if both of its transforms are the true ones. If all motions keep a direction, calibrations that differ by any distance along it see the same.", "quantifier": "every calibration, camera, list of observations and solver that reports the cost of the point where it ends", "why_tests_cant": "Says that no other calibration exists, over all pairs of poses.", "anchors": ["rct_optimizations/src/rct_optimizations/extrinsic_hand_eye.cpp: optimize"]}
{"id": "C79", "title": "A multi-camera calibration without error is the true one", "statement": "For perfect observations in front of the cameras, a final cost of zero means the true poses: for PnP with several cameras if one image has enough points; for static cameras if every camera has such an image and the wrist turned about two axes between those of one camera; for the wrist-only step if also the guesses are right up to a common motion; for the cameras-only step for all cameras and targets linked to a fixed first camera by such images, and up to a common motion, which no image can tell, without a fixed camera.", "quantifier": "every rig, list of images and solver that reports the cost of the point where it ends", "why_tests_cant": "Says that no other rig exists, over all poses of all cameras.", "anchors": ["rct_optimizations/src/rct_optimizations/extrinsic_multi_static_camera.cpp: optimize", "rct_optimizations/src/rct_optimizations/extrinsic_multi_static_camera_only.cpp: optimize", "rct_optimizations/src/rct_optimizations/extrinsic_multi_static_camera_wrist_only.cpp: optimize", "rct_optimizations/src/rct_optimizations/multi_camera_pnp.cpp: optimize"]}
{"id": "C80", "title": "A fitted circle without error is the true circle", "statement": "If all points are on a circle and three of them are different, the circle fit reports a final cost of zero exactly if its centre and radius are those of that circle; two points leave the circle open.", "quantifier": "every circle, list of points and solver that reports the cost of the point where it ends", "why_tests_cant": "Says that no other circle exists.", "anchors": ["rct_optimizations/src/rct_optimizations/circle_fit.cpp: optimize"]}
{"id": "C81", "title": "What the kinematic example holds, measurements cannot tell", "statement": "In a kinematic calibration the mount on the tip of a chain makes up for any offsets of its last joint, the transform between the bases for any offsets d and theta of the first joints, and the mount on a chain without joints for any transform between the bases: the predicted target pose stays the same wherever the joints are. So the example loses nothing by holding the last row of offsets and the transform between the bases: values with these as they were at the start cost no more. The offsets d and theta of the first joint, which it leaves free, are zero in every optimum whatever the measurements are.", "quantifier": "every pair of chains, rigid transforms, offsets, measurements of all joints and optimum", "why_tests_cant": "All chains, offsets and joint positions.", "anchors": ["rct_examples/src/examples/kinematic_calibration.cpp: main", "rct_optimizations/include/rct_optimizations/dh_chain.h: DHTransform::createRelativeTransform, DHChain::getFK", "rct_optimizations/src/rct_optimizations/dh_chain_kinematic_calibration.cpp: optimize"]}
{"id": "C82", "title": "Printed camera parameters and calibration results are those found", "statement": "printCameraIntrinsics and printCameraDistortion print each of fx, fy, cx, cy, k1, k2, p1, p2, k3 once, next to its own name. The kinematic calibration example prints for each of its two calibrations, under its own heading, convergence, the square roots of the costs per observation, both mounts as 4 x 4 tables with the Z, Y and X angles that give their rotation, the table of offsets of the target chain, exactly the correlation coefficients above one half in magnitude, and the statistics of the errors; then the improvement of the first over the second in percent.", "quantifier": "every camera, result, run of the example and number format without line ends and separators", "why_tests_cant": "All values, matrix sizes and texts.", "anchors": ["rct_common/include/rct_common/print_utils.h: getStringIntrinsics, getStringDistortion, printCameraIntrinsics, printCameraDistortion", "rct_examples/src/examples/kinematic_calibration.cpp: printResults, Stats, main"]}
{"id": "C83", "title": "The solver gets the true derivatives of every residual", "statement": "At every point where the formula of a cost does not switch, the derivatives that automatic differentiation hands to the solver for it are finite and are the derivatives of its residuals by each of its parameters: for hand-eye, multi-camera, intrinsic, circle, PnP and kinematic costs, the prior on offsets, and the plus operation of the quaternion parameterization. The points left out are rotation vectors of exactly the length where Ceres changes formula, the plane of the camera (kinematic and PnP costs: depth 1e-10), PnP without rotation, rotation vectors that the kinematic cost ignores, and orientation errors of zero and of half a turn. When the orientation agrees exactly, the kinematic cost gives zero without derivatives instead of values that are not numbers.", "quantifier": "every unknown, observation, intrinsics, chain and prior, at every point but those where the formulas switch", "why_tests_cant": "Derivatives are limits, at all points; no test sees them.", "anchors": ["rct_optimizations/src/rct_optimizations/extrinsic_hand_eye.cpp: ObservationCost2D3D, ObservationCost3D3D", "rct_optimizations/src/rct_optimizations/pnp.cpp: SolvePnPCostFunc, SolvePnPCostFunc3D", "rct_optimizations/src/rct_optimizations/camera_intrinsic.cpp: IntrinsicCostFunction", "rct_optimizations/include/rct_optimizations/dh_chain_kinematic_calibration.h: DualDHChainCost2D3D, DualDHChainCostPose6D", "rct_optimizations/include/rct_optimizations/maximum_likelihood.h: MaximumLikelihood", "rct_optimizations/include/rct_optimizations/local_parameterization.h: EigenQuaternionPlus"]}
{"id": "C84", "title": "A guess without rotation can be improved", "statement": "When a calibration starts from a guess whose rotation is the identity, the derivatives that the solver gets are finite and are the derivatives of the residuals, by rotation too, so that it can leave the guess.", "quantifier": "every problem with such a guess: hand-eye, static cameras, wrist correction, multi-camera PnP, PnP and kinematic calibration", "why_tests_cant": "All observations, cameras and chains; tests start from perturbed guesses.", "anchors": ["rct_optimizations/src/rct_optimizations/pnp.cpp: SolvePnPCostFunc, optimize", "rct_optimizations/include/rct_optimizations/dh_chain_kinematic_calibration.h: DualDHChainCost::createTransform", "rct_optimizations/src/rct_optimizations/extrinsic_hand_eye.cpp: optimize", "rct_optimizations/src/rct_optimizations/extrinsic_multi_static_camera_wrist_only.cpp: optimize"]}
{"id": "C85", "title": "A kinematic calibration without error is the true one", "statement": "If the measured poses (or images, as for PnP) are perfect and the chains are as designed, and each of the two chains turned about two axes that are not parallel while the other stood still, then a kinematic calibration reports a final cost of zero exactly if both mounts and the transform between the bases are the true ones and all offsets are zero. If the camera never moved, it reports zero exactly if offsets, target mount and the target base as seen from the camera are true; camera mount and base are then known together only.", "quantifier": "every pair of chains, true mounts and base transform, list of joint positions, measurements or images, and solver that reports the cost of the point where it ends", "why_tests_cant": "Says that no other calibration exists, over all mounts, bases and offsets.", "anchors": ["rct_optimizations/src/rct_optimizations/dh_chain_kinematic_calibration.cpp: optimize", "rct_optimizations/include/rct_optimizations/dh_chain_kinematic_calibration.h: DualDHChainCost2D3D, DualDHChainCostPose6D", "rct_optimizations/include/rct_optimizations/dh_chain.h: DHChain::getFK"]}
{"id": "C86", "title": "A simulated camera sees exactly the visible points", "statement": "Without the wish for all points, a simulated camera returns one correspondence for each point of the target that is in front of it and projects into its image, with the exact pinhole image, in the order of the points, and none for the others. With that wish it returns all points or throws if one is not visible. A simulated point sensor returns every point in its own frame. The camera of the tests sees the points in front of it up to 32/55 of their distance to each side and 24/55 of it up and down.", "quantifier": "every camera, pose of camera and target, and target", "why_tests_cant": "All poses and points, borders of the image included.", "anchors": ["rct_optimizations/test/src/observation_creator.cpp: getCorrespondences", "rct_optimizations/test/src/utilities.cpp: makeKinectCamera", "rct_optimizations/include/rct_optimizations/ceres_math_utilities.h: projectPoint"]}
{"id": "C87", "title": "Simulated hand-eye data fit the truth, and nothing else", "statement": "Simulated hand-eye observations are one for each proposed camera pose, in that order: the camera mount is where it puts the camera at that pose, and the correspondences are what is seen from there. All residuals of the hand-eye calibration are zero at the true transforms, and if the cameras turned about two axes (with enough points per image, in front of the camera) a calibration reports a final cost of zero exactly if it found the truth.", "quantifier": "every target, list of pose generators, true transforms and solver that reports the cost of the point where it ends", "why_tests_cant": "Says that the ground truth of the tests is the only answer, over all calibrations.", "anchors": ["rct_optimizations/test/src/observation_creator.cpp: createObservations", "rct_optimizations/src/rct_optimizations/extrinsic_hand_eye.cpp: optimize"]}
{"id": "C88", "title": "Pose generators place cameras that look at the target", "statement": "Hemisphere, cone and grid generators return one pose for each point of their pattern, in order: a rigid pose of a camera at that point that looks at the target, at the distance of the pattern, upright and turned by the given angle.", "quantifier": "every pattern, offset, turn and pose of the target", "why_tests_cant": "All patterns and poses, including cameras straight above the target.", "anchors": ["rct_optimizations/test/src/pose_generator.cpp: lookAt, HemispherePoseGenerator::generate, ConicalPoseGenerator::generate, GridPoseGenerator::generate"]}
{"id": "C89", "title": "Random turns about the optical axis are applied", "statement": "The generator of randomly turned poses returns each pose of the inner generator turned about its z axis by an angle within the given range.", "quantifier": "every inner generator, range and random numbers within their bounds", "why_tests_cant": "All random numbers.", "anchors": ["rct_optimizations/test/src/pose_generator.cpp: RandomZRotPoseGenerator::generate"]}
{"id": "C90", "title": "Simulated cameras look at the target", "statement": "In simulated hand-eye observations made with the hemisphere, cone and grid generators and no offset, every camera looks at the origin of the target, wherever the target is.", "quantifier": "every pattern and all true transforms", "why_tests_cant": "All target poses; tests use only some.", "anchors": ["rct_optimizations/test/src/observation_creator.cpp: createObservations", "rct_optimizations/test/src/pose_generator.cpp: generate"]}
{"id": "C91", "title": "Simulated kinematic data fit the truth", "statement": "Simulated 3D observations and pose measurements are as many as asked for, with joint values within the limits of the chains and exactly what the chains as designed predict. Simulated images either end in an error or have joint values within limits, face the target, see exactly its visible points, at least one, and have at least as many correspondences in all as the asked number of full views, the last image being needed; if the target is always in view they are as many as asked for. All residuals of the kinematic calibration are zero at the truth.", "quantifier": "every pair of chains, true mounts and base transform, camera, target, number and random numbers within their bounds", "why_tests_cant": "All random joint values.", "anchors": ["rct_optimizations/test/src/dh_chain_observation_creator.cpp: createKinematicObservations, createKinematicMeasurements", "rct_optimizations/include/rct_optimizations/dh_chain_kinematic_calibration.h: DualDHChainCost2D3D, DualDHChainCostPose6D"]}
{"id": "C92", "title": "Noise on poses is small, rigid and the same in every call", "statement": "perturbPose multiplies the pose from the right by a rigid transform that moves by at most the spatial noise along each axis and turns by at most the angular noise; without noise the pose stays. This transform is the same in every call with the same noise levels. If the compiler evaluates arguments in one order, its move is along its axis. Negative noise is undefined behaviour.", "quantifier": "every pose, noise levels, order of evaluation and generator of uniform numbers", "why_tests_cant": "All poses and random numbers; that calls repeat each other is a relation between runs.", "anchors": ["rct_optimizations/test/src/utilities.cpp: perturbPose"]}
{"id": "C93", "title": "Noise on chains changes only DH parameters", "statement": "perturbDHChain returns the chain with a separate normal draw added to each DH parameter and everything else as it was: joints, types, names, limits and base offset.", "quantifier": "every chain, standard deviation and generator of normal numbers", "why_tests_cant": "All chains and random numbers.", "anchors": ["rct_optimizations/test/src/utilities.cpp: perturbDHChain", "rct_optimizations/src/rct_optimizations/dh_chain.cpp: DHTransform::DHTransform"]}
{"id": "C94", "title": "Points, origin and centre of the simulated target", "statement": "The simulated target has the points of a grid of rows and columns like the real ones, origin_idx is the index of the point at the origin, and center is the centre of the points.", "quantifier": "every number of rows and columns and every spacing", "why_tests_cant": "All sizes.", "anchors": ["rct_optimizations/test/include/rct_optimizations_tests/utilities.h: Target"]}
{"id": "C95", "title": "Chain observations in Cartesian form fit hand-eye calibration", "statement": "Simulated observations of chains in Cartesian form have the tips of the two chains as mounts, and the true mounts of camera and target fit them exactly in a hand-eye calibration.", "quantifier": "every pair of chains, true mounts and base transform, camera, target, number and random numbers within their bounds", "why_tests_cant": "All chains, transforms and random joint values.", "anchors": ["rct_optimizations/test/src/dh_chain_observation_creator.cpp: createObservations"]}
{"id": "C96", "title": "Pictures that determine the camera in intrinsic calibration", "statement": "If pictures of a flat target without measurement error, taken by a pin-hole camera, include some whose target poses determine the camera, then a calibration result without error and without distortion is the true camera. A picture with the target tilted about the horizontal axis and one with it tilted about the vertical axis are enough. If the target is parallel to the image in all pictures, every other focal length fits without error too, however many pictures there are.", "quantifier": "every camera, number of pictures, target poses, correspondences, solver and end point of the solver", "why_tests_cant": "Uniqueness ranges over all cameras and poses the solver could end at.", "anchors": ["rct_optimizations/src/rct_optimizations/camera_intrinsic.cpp: optimize, IntrinsicCostFunction, projectPoints2", "rct_optimizations/include/rct_optimizations/experimental/camera_intrinsic.h: IntrinsicEstimationProblem"]}
{"id": "C97", "title": "Projection in double precision", "statement": "The two functions that project a point to a pixel return, in double precision, the pixel of the pin-hole model up to four roundings of the distance from the principal point and one of the principal point, plus what is lost in underflow; for cameras and images of ordinary size that is below 10^-10 of a pixel. In front of the camera both return the same numbers.", "quantifier": "every finite camera and point away from overflow, and both orders of summation in Eigen", "why_tests_cant": "Rounding errors range over all doubles.", "anchors": ["rct_optimizations/include/rct_optimizations/ceres_math_utilities.h: projectPoint"]}
{"id": "C98", "title": "Search for circle keypoints", "statement": "The circle grid finder tries 201 gains from 1 to 3 in steps of 0.01, up to the roundings of repeated addition, and for each the offsets 0 to 100. It goes on with the keypoints of the first try that finds at least as many as the target has circles, otherwise with those of the last try, and throws what the detector throws before that. Features are only returned if some try found enough keypoints, and each of them is within 2^-23 pixels of a keypoint of the first such try.", "quantifier": "every detector, image, target size and OpenCV grid search", "why_tests_cant": "All detectors and images; 20301 tries.", "anchors": ["rct_image_tools/src/rct_image_tools/modified_circle_grid_finder.cpp: extractKeyPoints, extractModifiedCircleGrid"]}
{"id": "C99", "title": "Thresholds of the circle detector in machine numbers", "statement": "With at least two thresholds, the first is exactly the minimum, they do not decrease, and they are evenly spaced up to one rounding of the range to float and a few to double. If the range is a float, as for whole numbers below 2^23, the error is one of doubles only and the last is exactly the maximum. A single threshold is the middle. Whole numbers in between need not come out exactly.", "quantifier": "every float minimum and maximum away from overflow, every number of thresholds up to 2^52", "why_tests_cant": "All floats and numbers of thresholds.", "anchors": ["rct_image_tools/src/rct_image_tools/circle_detector.cpp: applyThresholds", "rct_image_tools/include/rct_image_tools/circle_detector.h: CircleDetectorParams"]}
{"id": "C100", "title": "Mean and standard deviation in double precision", "statement": "For n samples of size at most M that differ by at most D, well above the resolution of doubles, the reported mean is within 4 n 2^-53 M of the mean. The reported standard deviation is a number and not negative; its error is at most 70 n 2^-53 M D divided by the true one, and at most 9 sqrt(n 2^-53 M D). Without samples the mean is not a number.", "quantifier": "every list of finite samples away from over- and underflow", "why_tests_cant": "Accumulated rounding errors over all lists of doubles.", "anchors": ["rct_optimizations/src/rct_optimizations/validation/noise_qualification.cpp: qualifyNoise2D, qualifyNoise3D", "rct_optimizations/src/rct_optimizations/validation/camera_intrinsic_calibration_validation.cpp: measureIntrinsicCalibrationAccuracy"]}
{"id": "C101", "title": "Correlations in double precision", "statement": "The correlation that is computed from finite covariances, with standard deviations of at least 2^-52, is the true one up to five roundings, so it is at most 2^-50 outside [-1, 1]. It can be above 1. The standard deviations on the diagonal are accurate to one rounding.", "quantifier": "every finite covariance away from overflow", "why_tests_cant": "Rounding errors range over all doubles.", "anchors": ["rct_optimizations/src/rct_optimizations/covariance_analysis.cpp: computeCorrelationsFromCovariance"]}
{"id": "C102", "title": "Choices of frames, units, order and picture size do not change what is found", "statement": "Hand-eye calibration and pose estimation depend on the data, not on how they are written down. Describe the same measurements with the observations and points in another order, another unit of length, another base frame (even another one for every observation), other frames of the camera mount, the target mount and the target, and pictures resized and moved together with the intrinsics: every calibration that has the target in front of the camera has, converted to the new frames, the same error, a guess is rejected in both descriptions or in none, and if both runs find a best calibration they report the same error (scaled like the pixels, or for measured points like the lengths) and the first result, converted, is a best one for the second. Pose estimation from a picture needs the points to be more than 10^-10 units in front of the camera for this.", "quantifier": "every problem, second description of it, and pair of solvers", "why_tests_cant": "Metamorphic: ranges over all pairs of descriptions of all data sets.", "anchors": ["rct_optimizations/src/rct_optimizations/extrinsic_hand_eye.cpp: optimize, ObservationCost2D3D, ObservationCost3D3D", "rct_optimizations/src/rct_optimizations/pnp.cpp: optimize, SolvePnPCostFunc, SolvePnPCostFunc3D"]}
{"id": "C103", "title": "Calibrations of the same data agree, and the one that may adjust more never fits worse", "statement": "The library offers several calibrations for the same pictures. With results that are best for their own unknowns and the target in front of the cameras: static cameras that are adjusted one by one report an error no larger than the same cameras moved as a whole (wrist only); cameras and targets without any wrist poses no larger than with them; the hand-eye errors of the single cameras sum up to no more than the error of all static cameras together, and with one camera the two are the same and a best result of one is a best result of the other, as it is for one camera calibrated wrist only; the pose estimates of the single pictures sum up to no more than hand-eye calibration, static cameras, cameras moved as a whole, cameras and targets, or a target at rest seen by several cameras, and with one known camera the last is the pose estimation.", "quantifier": "every data set and solvers that find a best result", "why_tests_cant": "Relates different entry points on all data sets; a test compares two runs.", "anchors": ["rct_optimizations/src/rct_optimizations/extrinsic_multi_static_camera.cpp: optimize", "rct_optimizations/src/rct_optimizations/extrinsic_multi_static_camera_wrist_only.cpp: optimize", "rct_optimizations/src/rct_optimizations/extrinsic_multi_static_camera_only.cpp: optimize", "rct_optimizations/src/rct_optimizations/multi_camera_pnp.cpp: optimize", "rct_optimizations/src/rct_optimizations/extrinsic_hand_eye.cpp: optimize", "rct_optimizations/src/rct_optimizations/pnp.cpp: optimize"]}
{"id": "C104", "title": "Numbers in YAML files", "statement": "Every finite double that is written to a YAML file with 17 significant digits, as current versions of yaml-cpp do, is read back as the same double, including subnormal numbers and negative zero. With fewer digits the value that is read has the same sign and is off by at most one unit of the last digit written. With the 16 digits of older versions some doubles change.", "quantifier": "every finite double and number of digits", "why_tests_cant": "All 2^64 doubles.", "anchors": ["rct_optimizations/include/rct_optimizations/serialization/eigen.h: convert<Eigen::Transform>::encode, decode", "rct_ros_tools/src/data_set.cpp: writePose"]}
{"id": "C105", "title": "Pose files, complete and cut", "statement": "A pose file that was written completely, with 17 digits, is read back as the same seven numbers. A pose file whose end is missing, at whatever character, is refused and never read as another pose. A file with a line that is not empty and no name with a colon, followed by a blank and a value or by nothing, is refused.", "quantifier": "every pose of finite numbers and every place where the file may be cut", "why_tests_cant": "All poses and all crash points within the file.", "anchors": ["rct_ros_tools/src/data_set.cpp: writePose", "rct_ros_tools/src/parameter_loaders.cpp: loadPose", "rct_optimizations/include/rct_optimizations/serialization/eigen.h: convert<Eigen::Transform>"]}
{"id": "C106", "title": "Saving data sets, complete or stopped at any character", "statement": "A data set that is saved completely is read back with the same images in the same order and poses that differ by rounding only (one rounding of each coordinate, 2^-49 in the entries of the rotation). If a first save stops at any character of an image or a pose, nothing can be read. If a save stops at any character of the index, nothing or the first pairs are read, and every number of them is possible. If a longer version is saved over an earlier one and stops before the index, the earlier pairs are read, except that one of them may be missing or have a pose whose last number is cut, which need not be a rigid motion.", "quantifier": "every data set of rigid poses, every directory, image format that refuses cut pictures, and every character at which saving may stop", "why_tests_cant": "All data sets and all crash points, character by character.", "anchors": ["rct_ros_tools/src/data_set.cpp: saveToDirectory, writeDirectory, writePose, parseFromFile, parse"]}
{"id": "C107", "title": "Kinematic calibrations: more freedom fits no worse, and held chains give the hand-eye calibration", "statement": "The error a kinematic calibration reports is the error of the observations and of the offsets, over the number of numbers, which counts the offsets of a chain that has any to find. With the same chains, guesses and data, a best result of a calibration that holds fewer parameters has a reported error no larger than any result of one that holds more. A best result with free mounts has a reported error no larger than that of the hand-eye calibration of the same pictures with the tips of the designed chains as mount poses. With the offsets of both chains and the transform between the bases held, the reported error is the hand-eye error of its mounts, and best results of both report the same error and are best for hand-eye calibration. The pictures must have the points more than 10^-10 units in front of the camera.", "quantifier": "every pair of chains, masks, data set and solvers that find a best result", "why_tests_cant": "Relates different runs and entry points on all data sets; a test compares two runs.", "anchors": ["rct_optimizations/src/rct_optimizations/dh_chain_kinematic_calibration.cpp: optimize", "rct_optimizations/include/rct_optimizations/dh_chain_kinematic_calibration.h: DualDHChainCost2D3D, DualDHChainCostPose6D", "rct_optimizations/src/rct_optimizations/extrinsic_hand_eye.cpp: optimize"]}
{"id": "C108", "title": "Calibrations with several cameras and of intrinsics do not depend on how the data are written down", "statement": "For the calibrations with several cameras (static, moved as a whole, cameras and targets, a target at rest): if the same data are given in another unit of length, with other frames of the base, the wrist and the target, with resized or shifted pictures, and with the cameras, images and points in another order, best results of both runs report the same error (in the new pixels), and the poses found in one description, written in the other, are a best solution there. For intrinsic calibration, where every picture may have its own unit and target frame, the camera found, resized with the pictures, and the same lens coefficients are best for the other description.", "quantifier": "every data set, every choice of units, frames, orders and picture sizes, and solvers that find a best result", "why_tests_cant": "All data sets and all redescriptions; a test compares two runs.", "anchors": ["rct_optimizations/src/rct_optimizations/extrinsic_multi_static_camera.cpp: optimize", "rct_optimizations/src/rct_optimizations/extrinsic_multi_static_camera_wrist_only.cpp: optimize", "rct_optimizations/src/rct_optimizations/extrinsic_multi_static_camera_only.cpp: optimize", "rct_optimizations/src/rct_optimizations/multi_camera_pnp.cpp: optimize", "rct_optimizations/src/rct_optimizations/camera_intrinsic.cpp: optimize"]}
{"id": "C109", "title": "Intrinsic calibration and pose estimation of the same pictures", "statement": "A best intrinsic calibration never reports a larger total error than estimating the pose of the target in every picture with one and the same camera, whatever the camera. If it finds no distortion, best pose estimates with the camera it finds have exactly its error. The initial error it reports is the total error of its own pose estimates with the guessed camera.", "quantifier": "every data set, camera and solvers that find a best result and report their costs honestly", "why_tests_cant": "Relates different entry points on all data sets.", "anchors": ["rct_optimizations/src/rct_optimizations/camera_intrinsic.cpp: optimize", "rct_optimizations/src/rct_optimizations/pnp.cpp: optimize"]}
{"id": "C110", "title": "Initial errors, and calibrating again from a result", "statement": "The initial error a calibration reports is the error of its guesses, in the same measure as the final one. If the result of a calibration is given as the guess of a second one on the same data, the second reports as initial error the final error of the first, and with a solver that does not end with larger costs than it started with, it never ends with a larger error. This holds for hand-eye calibration, pose estimation, the four calibrations with several cameras and the circle fit. Kinematic calibrations report the error of the guesses with the chains as designed. The target must be in front of the camera, and poses must turn by nothing or by more than the square root of machine epsilon (1.5e-8).", "quantifier": "every data set, every guess, and every solver that reports its costs honestly", "why_tests_cant": "Relates runs on all data sets; a test compares two runs.", "anchors": ["rct_optimizations/src/rct_optimizations/extrinsic_hand_eye.cpp: optimize", "rct_optimizations/src/rct_optimizations/pnp.cpp: optimize", "rct_optimizations/src/rct_optimizations/extrinsic_multi_static_camera.cpp: optimize", "rct_optimizations/src/rct_optimizations/extrinsic_multi_static_camera_wrist_only.cpp: optimize", "rct_optimizations/src/rct_optimizations/extrinsic_multi_static_camera_only.cpp: optimize", "rct_optimizations/src/rct_optimizations/multi_camera_pnp.cpp: optimize", "rct_optimizations/src/rct_optimizations/circle_fit.cpp: optimize", "rct_optimizations/src/rct_optimizations/dh_chain_kinematic_calibration.cpp: optimize"]}
{"id": "C111", "title": "Exactly when perfect data determine a hand-eye calibration", "statement": "With perfect data, a hand-eye calibration reports no error exactly when its result is the true calibration up to a movement of the camera that changes none of the motions between the observations. Nothing but standing still does that exactly when the motions neither all leave one direction alone nor all keep one line (turned over or not): then the result without error is the true calibration, and otherwise every calibration has a rival for which the target is at the same place in the camera in every observation. So turns about two axes suffice unless they are half turns. For static cameras that see a target on the wrist the same holds with the motions of the wrist before all cameras taken together: cameras that could not be calibrated alone may be calibrated together.", "quantifier": "every perfect data set (images of at least four flat points in general position seen in front and not edge-on, or measured points not on a line) and every solver that reports its costs honestly", "why_tests_cant": "Unit tests try a few motions; this says for every set of motions whether it suffices.", "anchors": ["rct_optimizations/src/rct_optimizations/extrinsic_hand_eye.cpp: optimize", "rct_optimizations/src/rct_optimizations/extrinsic_multi_static_camera.cpp: optimize"]}
{"id": "C112", "title": "Printed transforms can be copied", "statement": "What printTransform, printTransformDiff, printOptResults, printCameraIntrinsics and printCameraDistortion print, character by character: every number has six significant digits, and whoever reads it back gets it up to 5.1e-6 of its size. The numbers of a matrix stand in columns. Position and quaternion of a printed transform, copied into a pose file, are loaded as the same position to six digits and a rotation matrix whose entries differ by at most 7e-5; the printed roll, pitch and yaw give the rotation up to 1.1e-4 in every entry. Names must not contain line ends.", "quantifier": "every rigid transform within 2^900 of its origin, all costs and camera parameters up to 2^1000, all names of one line", "why_tests_cant": "All numbers; a test compares a few printed lines.", "anchors": ["rct_common/include/rct_common/print_utils.h: printTransform, printTransformDiff, printOptResults, printCameraIntrinsics, printCameraDistortion, getStringXYZ, getStringRPY, getStringQuaternion", "rct_ros_tools/src/parameter_loaders.cpp: loadPose"]}
{"id": "C113", "title": "What the tools print", "statement": "The text a calibration tool prints on reaching its end consists of the blocks its headings announce, in this order and with every number readable to six digits: costs, errors in space, the calibrated poses with the frames they are named after, correlations above one half, the largest first, and differences to single pose estimates; for several cameras, the pose of every camera on the base and in camera 0, and for every image, under its number, the pose of the target in camera 0 next to the estimated one. The printed final cost of hand-eye, static multi-camera, pose and intrinsic calibrations is the mean squared pixel error of the printed poses over the images used.", "quantifier": "every data set on which the tool reaches its end with numbers up to 2^1000, every target finder, solver that reports its costs honestly, and way std::to_string writes doubles on one line", "why_tests_cant": "All data sets and results; tests do not look at what tools print.", "anchors": ["rct_examples/src/tools/camera_on_wrist_extrinsic.cpp: main", "rct_examples/src/tools/static_camera_extrinsic.cpp: main", "rct_examples/src/tools/multi_static_camera_extrinsic.cpp: main", "rct_examples/src/tools/multi_static_camera_multi_step_extrinsic.cpp: main", "rct_examples/src/tools/solve_multi_camera_pnp.cpp: main", "rct_examples/src/tools/solve_pnp.cpp: main", "rct_examples/src/tools/intrinsic_calibration.cpp: main", "rct_examples/src/examples/camera_on_wrist.cpp: extrinsicWristCameraCalibration", "rct_examples/src/tools/hand_eye_calibration_analysis.h"]}
{"id": "C114", "title": "Targets whose points lie on a line determine no pose", "statement": "If the points of a target that were seen lie on one line, the target can be turned about that line without changing any error: hand-eye calibration, pose estimation, the calibrations with several cameras and intrinsic calibration have then, whatever the robot did, no single best result, and runs that end at results turned against each other report the same cost. A perfect picture of a circle grid (not edge-on), or its perfectly measured circles, determine the pose exactly if the grid has at least two rows and two columns some distance apart; measured points in general exactly if they do not lie on a line.", "quantifier": "every data set whose target points lie on a line, every angle, every grid, and every solver that reports its costs honestly", "why_tests_cant": "All targets and all data sets; a unit test tries one target.", "anchors": ["rct_optimizations/src/rct_optimizations/pnp.cpp: optimize", "rct_optimizations/src/rct_optimizations/extrinsic_hand_eye.cpp: optimize", "rct_optimizations/src/rct_optimizations/extrinsic_multi_static_camera.cpp: optimize", "rct_optimizations/src/rct_optimizations/extrinsic_multi_static_camera_wrist_only.cpp: optimize", "rct_optimizations/src/rct_optimizations/extrinsic_multi_static_camera_only.cpp: optimize", "rct_optimizations/src/rct_optimizations/multi_camera_pnp.cpp: optimize", "rct_optimizations/src/rct_optimizations/camera_intrinsic.cpp: optimize", "rct_image_tools/src/rct_image_tools/modified_circle_grid_target.cpp: createPoints"]}
{"id": "C115", "title": "Kinematic calibrations and how the data are written down", "statement": "The result of a kinematic calibration does not depend on how its data are written down. If frames at the bases of the chains, at the camera or at the target are placed differently, lengths are given in another unit, observations come in another order or pictures are enlarged and shifted together with the camera's parameters, then the best result is the same calibration in the new description, and its reported final cost changes by the square of the scale.", "quantifier": "every pair of chains, every data set, all masks that hold or free whole poses, all frames, units, orders and picture sizes; also every solver that reports its costs honestly", "why_tests_cant": "Compares calibrations of all data sets in all descriptions; a test runs one.", "anchors": ["rct_optimizations/src/rct_optimizations/dh_chain_kinematic_calibration.cpp: optimize", "rct_optimizations/include/rct_optimizations/dh_chain_kinematic_calibration.h: DualDHChainCost2D3D, DualDHChainCostPose6D"]}
{"id": "C116", "title": "Small noise gives small calibration errors", "statement": "Measurement noise does not spoil a calibration out of proportion. Take perfect data that determine the calibration: a flat target seen not edge-on, or measured points not on a line, for a pose; a robot that turned about two axes for hand-eye calibrations and fixed camera rigs; cameras linked by common targets; three different points for a circle. Then for every tolerance there is a noise level such that, whenever all pixels, measured points and robot poses are within that noise of the perfect ones and the reported final cost per observation is below it as well, the returned result is within the tolerance of the truth. Instead of a small cost it is enough that the result fits the noisy data at least as well as the truth does, for cameras that keep their arrangement at least as well as this arrangement truly moved. For images the result must keep the targets in front of the camera.", "quantifier": "every perfect data set that determines the calibration, every tolerance, all noise within the level, every start and every solver that reports its costs honestly", "why_tests_cant": "Holds for all noise below a level, for every tolerance; tests sample a few noisy data sets.", "anchors": ["rct_optimizations/src/rct_optimizations/pnp.cpp: optimize", "rct_optimizations/src/rct_optimizations/extrinsic_hand_eye.cpp: optimize", "rct_optimizations/src/rct_optimizations/multi_camera_pnp.cpp: optimize", "rct_optimizations/src/rct_optimizations/extrinsic_multi_static_camera.cpp: optimize", "rct_optimizations/src/rct_optimizations/extrinsic_multi_static_camera_wrist_only.cpp: optimize", "rct_optimizations/src/rct_optimizations/extrinsic_multi_static_camera_only.cpp: optimize", "rct_optimizations/src/rct_optimizations/circle_fit.cpp: optimize"]}
{"id": "C117", "title": "Accurate data pass the checks", "statement": "The checks of the library do not reject good data. Take a flat target seen not edge-on, or measured points not on a line. For every tolerance there is a noise level such that, if all pixels or points of all problems are within it of perfect ones, the solver reports honestly and every pose estimation that converges explains its data (the target in front of the camera, and a cost below the level or not above that of the true pose), noise qualification reports a mean position and mean orientation within the tolerance of the true pose and standard deviations below the tolerance. For intrinsic validation, take any list of perfect pictures each half of which determines the pose: for noise below a level that depends on the list, the reported mean and standard deviation of the differences in position and angle are below the tolerance, and the validation tool, whenever it gives a verdict, calls the calibration valid.", "quantifier": "every perfect data set that determines the poses, any number of problems or pictures, every tolerance, all noise within the level, every solver that reports its costs honestly", "why_tests_cant": "Holds for all noise below a level, for every tolerance and any number of pictures; tests sample a few noisy data sets.", "anchors": ["rct_optimizations/src/rct_optimizations/validation/noise_qualification.cpp: qualifyNoise2D, qualifyNoise3D", "rct_optimizations/src/rct_optimizations/validation/camera_intrinsic_calibration_validation.cpp: measureVirtualTargetDiff, measureIntrinsicCalibrationAccuracy", "rct_examples/src/tools/camera_intrinsic_calibration_validation.cpp: main, analyzeResults"]}
{"id": "C118", "title": "The noise tool sees the noise", "statement": "What the noise qualification tool reports as standard deviations is the spread of the target poses in the listed images. This fails: only the first file is ever read, so that the same pose estimation is repeated. With a solver that answers equal problems equally and a right decomposition for the mean orientation, the reported standard deviations of position and orientation are zero, in exact arithmetic, whatever the other images show, even if they are perfect pictures of the target half a metre further. The reported mean is the pose estimated from the first file.", "quantifier": "every list of image files, every target finder, camera and guess, every solver that answers equal problems equally", "why_tests_cant": "Concerns all image files, and tests with equal images cannot notice that the others are not read.", "anchors": ["rct_examples/src/tools/noise_qualification_2d.cpp: main", "rct_optimizations/src/rct_optimizations/validation/noise_qualification.cpp: qualifyNoise2D"]}
{"id": "C119", "title": "What the checks print", "statement": "The intrinsic validation tool prints, with their units and to six digits, the mean and standard deviation of the position and angle differences over the images that show the target. It then says that the calibration is valid if mean plus two standard deviations is at most 1 mm and 0.05 degrees, and otherwise warns, giving both errors, each with what is allowed. There are messages exactly if there is a verdict. The noise qualification tool prints mean and standard deviation of the position and the mean orientation (x, y, z, w) as lists in brackets with four digits, and the standard deviation of the orientation to six digits. All this for numbers below 2^990.", "quantifier": "every data set, every target finder and solver, all statistics with numbers below 2^990", "why_tests_cant": "Concerns the characters printed for all results; no test looks at the printed text.", "anchors": ["rct_examples/src/tools/camera_intrinsic_calibration_validation.cpp: main, analyzeResults", "rct_examples/src/tools/noise_qualification_2d.cpp: main"]}
{"id": "C120", "title": "Calibrating two sessions together", "statement": "Calibrating the data of two sessions together never explains them better than the sessions explain themselves: for results that no calibration betters, the reported final cost per observation, times the number of observations, is at least the sum of that of the two sessions. It is exactly that sum if both sessions gave the same calibration (for camera-only calibrations: the same cameras), and this calibration is then best for all the data. In particular, listing every measurement twice leaves the reported cost per observation unchanged, and the best result stays best. This holds for hand-eye calibration and pose estimation from pictures and from points in space, the three calibrations of several static cameras, and multi-camera pose estimation.", "quantifier": "all data of two sessions, in any order where the tool does not tie it to robot poses, any number of cameras, images and points, every solver that reports its costs honestly", "why_tests_cant": "Compares three calibrations for all data; a test runs a few.", "anchors": ["rct_optimizations/src/rct_optimizations/extrinsic_hand_eye.cpp: optimize", "rct_optimizations/src/rct_optimizations/pnp.cpp: optimize", "rct_optimizations/src/rct_optimizations/extrinsic_multi_static_camera.cpp: optimize", "rct_optimizations/src/rct_optimizations/extrinsic_multi_static_camera_wrist_only.cpp: optimize", "rct_optimizations/src/rct_optimizations/extrinsic_multi_static_camera_only.cpp: optimize", "rct_optimizations/src/rct_optimizations/multi_camera_pnp.cpp: optimize"]}
{"id": "C121", "title": "The printed dot target is the target calibrated against", "statement": "A dot target printed by the target script with grid_X columns, grid_Y rows and the same spacing and printed at full size is the modified circle grid of the library: measured from the centre of the large dot, to the right and up, the dots are centred exactly at the target points. The page shows the foreground colour exactly within half a dot size of a target point or one dot size of the origin, except for marks of 3% of the dot size around the points, and the background elsewhere on the page, with or without a footer. The spacing must be more than 0.53 dot sizes.", "quantifier": "any numbers of rows and columns, all spacings, dot sizes and points of the page", "why_tests_cant": "All grids and sizes and every point of the page; no test looks at printed targets.", "anchors": ["rct_image_tools/script/calibration_target.py: calTarget, dotTarget", "rct_image_tools/src/rct_image_tools/modified_circle_grid_target.cpp: createPoints", "rct_image_tools/README.md"]}
{"id": "C122", "title": "The dots of a printed target are whole and apart", "statement": "All dots of a printed target whose dots are apart are whole on its page. This fails for large dots: they are whole exactly if the dot size is at most two inches and at most one inch more than the width and the height of the grid of centres. The dots, with the large one at the origin, are apart exactly if the spacing is more than one and a half dot sizes.", "quantifier": "any numbers of rows and columns, all spacings and dot sizes", "why_tests_cant": "All grids and sizes; no test looks at printed targets.", "anchors": ["rct_image_tools/script/calibration_target.py: dotTarget, get_pageSize, draw"]}
{"id": "C123", "title": "A printed checkerboard has the intersections asked for", "statement": "A checkerboard printed for a grid of X by Y has X times Y intersections, as the script says of its grid dimensions. This fails: the points where four squares meet are X-1 times Y-1. They lie at half an inch plus whole numbers of spacings from the left and the bottom of the page, in both directions. The page is the board with half an inch around it; squares are black and white in turn, the one at the bottom left is black.", "quantifier": "all grid dimensions and spacings", "why_tests_cant": "All grids and every point of the page; no test looks at printed targets.", "anchors": ["rct_image_tools/script/calibration_target.py: checkerTarget"]}
{"id": "C124", "title": "The options of the target script", "statement": "If --invert is true, dots are white on black, otherwise black on white. This fails: any text but the empty one counts as true, so that --invert False inverts the colours. Checkerboards look the same with and without --invert. The target is handed on for writing exactly if the file name has the extension pdf, png or jpg, written in small letters; for all other names NotImplementedError is raised.", "quantifier": "all options and file names, every point of the page", "why_tests_cant": "Ranges over all texts given as options.", "anchors": ["rct_image_tools/script/calibration_target.py: parse_args, calTarget, save"]}
{"id": "C125", "title": "Showing the features that were found", "statement": "Drawing the features of a target keeps the image it is given, returning a new one. For circle grids this holds, and labels mark the observations of the top left point, the origin and the bottom right point of the target; an entry without a position throws an exception, and features that do not reach the last row are undefined behaviour. For ArUco and ChArUco boards it fails: markers and corners are drawn into the image that was passed in, which is then returned. Exactly that image changes.", "quantifier": "all images, features, grids and whatever OpenCV draws", "why_tests_cant": "All features and images; a test would have to compare every pixel before and after.", "anchors": ["rct_image_tools/src/rct_image_tools/modified_circle_grid_finder.cpp: drawTargetFeatures, renderObservations, drawPointLabel", "rct_image_tools/src/rct_image_tools/circle_detector.cpp: drawDetectedCircles", "rct_image_tools/src/rct_image_tools/aruco_finder.cpp: drawTargetFeatures", "rct_image_tools/src/rct_image_tools/charuco_finder.cpp: drawTargetFeatures"]}
{"id": "C126", "title": "The program that tries the circle finder", "statement": "Called with an image, a number of rows and a number of columns, both positive ints, the program tries to find that grid and says how many features it found, or else what exception the finder threw. Its status is zero in both cases. With another number of arguments it prints how it is used and returns one. Sizes are read from the start of their texts: blanks, a sign, digits; what follows is ignored. Sizes that are no number, zero, or no int end the program.", "quantifier": "all argument lists, images, finders and displays", "why_tests_cant": "All texts as arguments and all outcomes of the finder.", "anchors": ["rct_image_tools/src/target_finder_tests.cpp: main"]}
{"id": "C127", "title": "The points of a circle grid in machine numbers", "statement": "For every spacing that is a finite double, not so large that coordinates overflow, the coordinates of the target points are the doubles nearest to the exact multiples of the spacing, with a relative error of 2^-53 at most. Points of one column have exactly the same x, points of one row exactly the same y. No two points coincide unless the spacing is zero. Steps between points are right up to a millionth of the spacing. Spacings with few binary digits give exact points. Targets compare equal only if their sizes are the same and their spacings less than 2^-52 apart; spacings of one or more compare equal only if they are the same double.", "quantifier": "all sizes and all doubles as spacing, all doubles", "why_tests_cant": "All doubles, including the subnormal ones where relative errors usually fail.", "anchors": ["rct_image_tools/src/rct_image_tools/modified_circle_grid_target.cpp: createPoints, operator=="]}
{"id": "C128", "title": "Warnings about images", "statement": "A tool that works through a set of images says of each image, in their order, how many features it found, or it warns, with the number of the image and the reason; it warns of exactly the images it does not use, so that warnings and observations add up to the number of images. This holds for intrinsic calibration and for the check of intrinsics. The example program writes a line exactly for the images in which its finder fails. It fails for the hand-eye tools: they warn of every image they do not use, with the average homography error where that was too large, but also of images they use and then cannot show. The noise tool only looks at its first image: it warns of all images or of none, with their own numbers.", "quantifier": "all image sets, finders, targets and displays, for runs that reach the end of the loop", "why_tests_cant": "All combinations of images with and without targets and of failing calls.", "anchors": ["rct_examples/src/tools/camera_on_wrist_extrinsic.cpp: main", "rct_examples/src/tools/static_camera_extrinsic.cpp: main", "rct_examples/src/tools/intrinsic_calibration.cpp: main", "rct_examples/src/tools/camera_intrinsic_calibration_validation.cpp: main", "rct_examples/src/tools/noise_qualification_2d.cpp: main", "rct_examples/src/examples/camera_on_wrist.cpp: extrinsicWristCameraCalibration"]}
