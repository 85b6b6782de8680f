-Q theories Verif
theories/Base/Float.v
theories/Base/Geom.v
theories/Base/Matrix.v
theories/Base/Outcome.v
theories/Model/Accumulator.v
theories/Model/BlockSolver.v
theories/Model/CameraTools.v
theories/Model/CheckText.v
theories/Model/CircleDetector.v
theories/Model/CircleFit.v
theories/Model/CircleGridFinder.v
theories/Model/Collector.v
theories/Model/CorrDataSet.v
theories/Model/CovReport.v
theories/Model/Covariance.v
theories/Model/CvTools.v
theories/Model/DataSet.v
theories/Model/DataSetText.v
theories/Model/DhChain.v
theories/Model/Equality.v
theories/Model/ExampleTools.v
theories/Model/FeatureDrawing.v
theories/Model/FinderTest.v
theories/Model/FloatCode.v
theories/Model/Functors.v
theories/Model/HandEye.v
theories/Model/Homography.v
theories/Model/ImageText.v
theories/Model/Intrinsic.v
theories/Model/IntrinsicValidation.v
theories/Model/Jet.v
theories/Model/Kinematic.v
theories/Model/KinematicExample.v
theories/Model/Loaders.v
theories/Model/LocalParam.v
theories/Model/MaxLikelihood.v
theories/Model/MultiCamera.v
theories/Model/NoiseQualification.v
theories/Model/NumberText.v
theories/Model/ParamText.v
theories/Model/Plugins.v
theories/Model/Pnp.v
theories/Model/Pose.v
theories/Model/PoseText.v
theories/Model/Print.v
theories/Model/PrintText.v
theories/Model/Projection.v
theories/Model/Serialization.v
theories/Model/Simulation.v
theories/Model/Solver.v
theories/Model/TargetScript.v
theories/Model/Targets.v
theories/Model/ToolText.v
theories/Model/Yaml.v
theories/Spec/CameraSpec.v
theories/Spec/CheckSpec.v
theories/Spec/CircleSpec.v
theories/Spec/CollectorSpec.v
theories/Spec/CorrDataSpec.v
theories/Spec/CovarianceSpec.v
theories/Spec/DataSetSpec.v
theories/Spec/DataSetTextSpec.v
theories/Spec/DerivativeSpec.v
theories/Spec/DetectorSpec.v
theories/Spec/DeterminedSpec.v
theories/Spec/DhSpec.v
theories/Spec/DrawingSpec.v
theories/Spec/EqualitySpec.v
theories/Spec/FinderTestSpec.v
theories/Spec/FloatSpec.v
theories/Spec/Frames.v
theories/Spec/FreezeSpec.v
theories/Spec/GridOrderSpec.v
theories/Spec/HomographySpec.v
theories/Spec/ImageMessageSpec.v
theories/Spec/IntrinsicSpec.v
theories/Spec/IntrinsicUniqueSpec.v
theories/Spec/KinChoicesSpec.v
theories/Spec/KinExampleSpec.v
theories/Spec/KinFitSpec.v
theories/Spec/KinReport.v
theories/Spec/KinSpec.v
theories/Spec/KinStartSpec.v
theories/Spec/KinUniqueSpec.v
theories/Spec/LabelSpec.v
theories/Spec/LensAgreeSpec.v
theories/Spec/LensChoicesSpec.v
theories/Spec/LineTargetSpec.v
theories/Spec/LoaderSpec.v
theories/Spec/MessageSpec.v
theories/Spec/MultiSpec.v
theories/Spec/NearSpec.v
theories/Spec/OracleSpec.v
theories/Spec/ParamTextSpec.v
theories/Spec/PinHole.v
theories/Spec/PluginSpec.v
theories/Spec/PnpSpec.v
theories/Spec/PooledSpec.v
theories/Spec/PoseTextSpec.v
theories/Spec/PrintSpec.v
theories/Spec/PrintTextSpec.v
theories/Spec/ProjectionSpec.v
theories/Spec/RedundancySpec.v
theories/Spec/ReportSpec.v
theories/Spec/RestartSpec.v
theories/Spec/RigChoicesSpec.v
theories/Spec/SameDataSpec.v
theories/Spec/SearchSpec.v
theories/Spec/SheetSpec.v
theories/Spec/SimulationSpec.v
theories/Spec/StatSpec.v
theories/Spec/TargetSpec.v
theories/Spec/TextSpec.v
theories/Spec/ToolSpec.v
theories/Spec/ToolTextSpec.v
theories/Spec/ToolsAgreeSpec.v
theories/Spec/UniqueSpec.v
theories/Spec/ValidationSpec.v
theories/Spec/YamlSpec.v
theories/Proofs/AnalysisProofs.v
theories/Proofs/AngleAxisLemmas.v
theories/Proofs/BoardProofs.v
theories/Proofs/CameraToolProofs.v
theories/Proofs/CheckTextExamples.v
theories/Proofs/CheckTextProofs.v
theories/Proofs/CircleFitProofs.v
theories/Proofs/CollectorProofs.v
theories/Proofs/CorrDataProofs.v
theories/Proofs/CorrelationProofs.v
theories/Proofs/CovarianceProofs.v
theories/Proofs/CvPageProofs.v
theories/Proofs/CvToolProofs.v
theories/Proofs/DataSetProofs.v
theories/Proofs/DataSetTextProofs.v
theories/Proofs/DerivExample.v
theories/Proofs/DerivProofs.v
theories/Proofs/DetectorProofs.v
theories/Proofs/DeterminedExample.v
theories/Proofs/DeterminedProofs.v
theories/Proofs/DeterminedStatic.v
theories/Proofs/DhExamples.v
theories/Proofs/DhProofs.v
theories/Proofs/DrawingProofs.v
theories/Proofs/EqualityProofs.v
theories/Proofs/EulerProofs.v
theories/Proofs/FilterProofs.v
theories/Proofs/FinderTestProofs.v
theories/Proofs/FloatCorrelation.v
theories/Proofs/FloatLemmas.v
theories/Proofs/FloatProjection.v
theories/Proofs/FloatStat.v
theories/Proofs/FloatTarget.v
theories/Proofs/FunctorProofs.v
theories/Proofs/GeomLemmas.v
theories/Proofs/GridOrderProofs.v
theories/Proofs/GridTransposedProofs.v
theories/Proofs/GridViewProofs.v
theories/Proofs/GridWalkProofs.v
theories/Proofs/HandEyeProofs.v
theories/Proofs/HandEyeToolProofs.v
theories/Proofs/HomographyProofs.v
theories/Proofs/ImageTextProofs.v
theories/Proofs/InterruptProofs.v
theories/Proofs/IntrinsicProofs.v
theories/Proofs/IntrinsicUnique.v
theories/Proofs/IntrinsicUniqueExample.v
theories/Proofs/IntrinsicValidationProofs.v
theories/Proofs/JetProofs.v
theories/Proofs/KinChoicesAgain.v
theories/Proofs/KinChoicesExample.v
theories/Proofs/KinChoicesProofs.v
theories/Proofs/KinCompareProofs.v
theories/Proofs/KinDerivProofs.v
theories/Proofs/KinFileProofs.v
theories/Proofs/KinFitExample.v
theories/Proofs/KinFitProofs.v
theories/Proofs/KinRunProofs.v
theories/Proofs/KinStartProofs.v
theories/Proofs/KinematicCall.v
theories/Proofs/KinematicProofs.v
theories/Proofs/LabelProofs.v
theories/Proofs/LensAgreeExample.v
theories/Proofs/LensAgreeProofs.v
theories/Proofs/LensChoicesExample.v
theories/Proofs/LensChoicesProofs.v
theories/Proofs/LimitLemmas.v
theories/Proofs/LineTargetExample.v
theories/Proofs/LineTargetProofs.v
theories/Proofs/ListLemmas.v
theories/Proofs/LoaderProofs.v
theories/Proofs/LocalParamProofs.v
theories/Proofs/LoopProofs.v
theories/Proofs/MaxLikelihoodProofs.v
theories/Proofs/MoreExamples.v
theories/Proofs/MultiCameraProofs.v
theories/Proofs/NearBest.v
theories/Proofs/NearBestRigs.v
theories/Proofs/NearCheckExamples.v
theories/Proofs/NearChecks.v
theories/Proofs/NearCircle.v
theories/Proofs/NearExamples.v
theories/Proofs/NearHandEye.v
theories/Proofs/NearMulti.v
theories/Proofs/NearPose.v
theories/Proofs/NearProofs.v
theories/Proofs/NoiseProofs.v
theories/Proofs/NumberTextProofs.v
theories/Proofs/OneWristCamera.v
theories/Proofs/PageExamples.v
theories/Proofs/ParamTextProofs.v
theories/Proofs/PluginProofs.v
theories/Proofs/PnpProofs.v
theories/Proofs/PooledExamples.v
theories/Proofs/PooledProofs.v
theories/Proofs/PoseDerivProofs.v
theories/Proofs/PoseLineProofs.v
theories/Proofs/PoseProofs.v
theories/Proofs/PoseTextProofs.v
theories/Proofs/PrintProofs.v
theories/Proofs/PrintTextCopies.v
theories/Proofs/PrintTextExample.v
theories/Proofs/PrintTextProofs.v
theories/Proofs/ProjectionProofs.v
theories/Proofs/RedundancyExample.v
theories/Proofs/RedundancyProofs.v
theories/Proofs/RestartExample.v
theories/Proofs/RestartProofs.v
theories/Proofs/RigChoicesExample.v
theories/Proofs/RigChoicesProofs.v
theories/Proofs/RigPageProofs.v
theories/Proofs/RigSceneProofs.v
theories/Proofs/RigToolProofs.v
theories/Proofs/RotLemmas.v
theories/Proofs/SameDataExample.v
theories/Proofs/SameDataProofs.v
theories/Proofs/SceneProofs.v
theories/Proofs/ScenesProofs.v
theories/Proofs/ScriptProofs.v
theories/Proofs/SearchProofs.v
theories/Proofs/SheetFitProofs.v
theories/Proofs/SheetProofs.v
theories/Proofs/SimCameraProofs.v
theories/Proofs/SimExamples.v
theories/Proofs/SimHandEyeProofs.v
theories/Proofs/SimKinematicProofs.v
theories/Proofs/SimPerturbProofs.v
theories/Proofs/SimPoseProofs.v
theories/Proofs/SimulationProofs.v
theories/Proofs/StatProofs.v
theories/Proofs/TargetProofs.v
theories/Proofs/TextProofs.v
theories/Proofs/ThresholdProofs.v
theories/Proofs/ToolPageExamples.v
theories/Proofs/ToolPageProofs.v
theories/Proofs/ToolProofs.v
theories/Proofs/ToolTextProofs.v
theories/Proofs/ToolsAgreeExample.v
theories/Proofs/ToolsAgreeProofs.v
theories/Proofs/UniqueCircle.v
theories/Proofs/UniqueExamples.v
theories/Proofs/UniqueKinematic.v
theories/Proofs/UniqueKinematicExample.v
theories/Proofs/UniqueLemmas.v
theories/Proofs/UniqueMulti.v
theories/Proofs/UniqueMultiExamples.v
theories/Proofs/UniqueProofs.v
theories/Proofs/YamlProofs.v
theories/Proofs/ZeroTurnProofs.v
theories/Props/C01.v
theories/Props/C02.v
theories/Props/C03.v
theories/Props/C04.v
theories/Props/C05.v
theories/Props/C06.v
theories/Props/C07.v
theories/Props/C08.v
theories/Props/C09.v
theories/Props/C10.v
theories/Props/C100.v
theories/Props/C101.v
theories/Props/C102.v
theories/Props/C103.v
theories/Props/C104.v
theories/Props/C105.v
theories/Props/C106.v
theories/Props/C107.v
theories/Props/C108.v
theories/Props/C109.v
theories/Props/C11.v
theories/Props/C110.v
theories/Props/C111.v
theories/Props/C112.v
theories/Props/C113.v
theories/Props/C114.v
theories/Props/C115.v
theories/Props/C116.v
theories/Props/C117.v
theories/Props/C118.v
theories/Props/C119.v
theories/Props/C12.v
theories/Props/C120.v
theories/Props/C121.v
theories/Props/C122.v
theories/Props/C123.v
theories/Props/C124.v
theories/Props/C125.v
theories/Props/C126.v
theories/Props/C127.v
theories/Props/C128.v
theories/Props/C13.v
theories/Props/C14.v
theories/Props/C15.v
theories/Props/C16.v
theories/Props/C17.v
theories/Props/C18.v
theories/Props/C19.v
theories/Props/C20.v
theories/Props/C21.v
theories/Props/C22.v
theories/Props/C23.v
theories/Props/C24.v
theories/Props/C25.v
theories/Props/C26.v
theories/Props/C27.v
theories/Props/C28.v
theories/Props/C29.v
theories/Props/C30.v
theories/Props/C31.v
theories/Props/C32.v
theories/Props/C33.v
theories/Props/C34.v
theories/Props/C35.v
theories/Props/C36.v
theories/Props/C37.v
theories/Props/C38.v
theories/Props/C39.v
theories/Props/C40.v
theories/Props/C41.v
theories/Props/C42.v
theories/Props/C43.v
theories/Props/C44.v
theories/Props/C45.v
theories/Props/C46.v
theories/Props/C47.v
theories/Props/C48.v
theories/Props/C49.v
theories/Props/C50.v
theories/Props/C51.v
theories/Props/C52.v
theories/Props/C53.v
theories/Props/C54.v
theories/Props/C55.v
theories/Props/C56.v
theories/Props/C57.v
theories/Props/C58.v
theories/Props/C59.v
theories/Props/C60.v
theories/Props/C61.v
theories/Props/C62.v
theories/Props/C63.v
theories/Props/C64.v
theories/Props/C65.v
theories/Props/C66.v
theories/Props/C67.v
theories/Props/C68.v
theories/Props/C69.v
theories/Props/C70.v
theories/Props/C71.v
theories/Props/C72.v
theories/Props/C73.v
theories/Props/C74.v
theories/Props/C75.v
theories/Props/C76.v
theories/Props/C77.v
theories/Props/C78.v
theories/Props/C79.v
theories/Props/C80.v
theories/Props/C81.v
theories/Props/C82.v
theories/Props/C83.v
theories/Props/C84.v
theories/Props/C85.v
theories/Props/C86.v
theories/Props/C87.v
theories/Props/C88.v
theories/Props/C89.v
theories/Props/C90.v
theories/Props/C91.v
theories/Props/C92.v
theories/Props/C93.v
theories/Props/C94.v
theories/Props/C95.v
theories/Props/C96.v
theories/Props/C97.v
theories/Props/C98.v
theories/Props/C99.v
