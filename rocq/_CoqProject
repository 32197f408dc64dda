-Q theories Verif
theories/Prelude.v
theories/Num.v
theories/Kernel.v
theories/Spec.v
theories/KernelProofs.v
theories/CombProofs.v
theories/RealBase.v
theories/PrimeProofs.v
theories/Parallel.v
theories/Apply.v
theories/ApplyProofs.v
theories/ApplyUni.v
theories/ApplyMulti.v
theories/RealProofs.v
theories/ChoiceProofs.v
theories/TransformProofs.v
theories/TransformLaws.v
theories/KernelLaws.v
theories/PropsKernel.v
theories/MismatchProofs.v
theories/SampleLaws.v
theories/Cases.v
theories/PropsTransform.v
theories/Gen.v
theories/GenSched.v
theories/GenBase.v
theories/GenUni.v
theories/GenULoop.v
theories/GenTrace.v
theories/GenURun.v
theories/GenDraw.v
theories/GenSpec.v
theories/GenUFinal.v
theories/GenUTop.v
theories/GenULaws.v
theories/GenUCase.v
theories/PropsGenU.v
theories/GenMulti.v
theories/GenMLoop.v
theories/GenMRun.v
theories/GenMSpec.v
theories/GenMFinal.v
theories/GenMTop.v
theories/GenMLaws.v
theories/GenMCase.v
theories/PropsGenM.v
theories/Checks.v
theories/ChecksProofs.v
theories/PropsChecks.v
theories/Estimator.v
theories/EstimatorProofs.v
theories/EstimatorLaws.v
theories/EstimatorNum.v
theories/EstimatorCases.v
theories/PropsEstimator.v
theories/Sorting.v
theories/NumbaUtils.v
theories/NumbaUtilsProofs.v
theories/PropsUtils.v
theories/Preproc.v
theories/PreprocProofs.v
theories/PropsPreproc.v
theories/Experiments.v
theories/ExperimentsProofs.v
theories/PropsExperiments.v
theories/PlotUtils.v
theories/PlotProofs.v
theories/PlotReal.v
theories/PropsPlot.v
theories/Classifiers.v
theories/ClassifierProofs.v
theories/EnsembleProofs.v
theories/VoteProofs.v
theories/PropsClassifiers.v
theories/Interpreter.v
theories/InterpreterProofs.v
theories/PropsInterpreter.v
theories/FitAny.v
theories/EndToEnd.v
theories/DrawLaws.v
theories/DrawFit.v
theories/PrimeLaw.v
theories/PermLaws.v
theories/OrderLaws.v
theories/WindowLaw.v
theories/MWindowLaw.v
theories/ChanceLaws.v
theories/PropsDraws.v
theories/PropsEndToEnd.v
theories/FloatLaws.v
theories/PropsFloat.v
theories/CdDiagram.v
theories/CdProofs.v
theories/PropsCd.v
theories/Clone.v
theories/PropsClone.v
theories/GridSearch.v
theories/PropsGridSearch.v
theories/InputTrans.v
theories/PropsInput.v
theories/Defaults.v
theories/PropsPipeline.v
theories/PropsBatch.v
theories/PropsNames.v
theories/PropsParams.v
theories/GenAny.v
theories/FloatReal.v
theories/FitFloat.v
theories/FitAnyTop.v
theories/Libm.v
theories/PropsFit64.v
theories/FloatError.v
theories/PropsAccuracy.v
theories/FloatNorm.v
theories/PropsNorm.v
theories/Unfitted.v
theories/PropsUnfitted.v
theories/Noise.v
theories/PropsNoise.v
theories/PropsSampleSize.v
theories/Units.v
theories/UnitsU.v
theories/UnitsM.v
theories/UnitsFit.v
theories/PropsUnits.v
theories/Longer.v
theories/PropsLonger.v
theories/FastMath.v
theories/PropsFastMath.v
theories/EarlyAbandon.v
theories/PropsAbandon.v
theories/PropsChannels.v
theories/Int64.v
theories/Int64Proofs.v
theories/PropsInt64.v
theories/PropsDilation.v
theories/PropsSimilar.v
theories/PropsReverse.v
theories/Scripts.v
theories/PropsScripts.v
theories/PropsInteger.v
theories/PropsOverlap.v
theories/Levels.v
theories/LevelsAny.v
theories/PropsLevels.v
theories/Seeds.v
theories/PropsSeeds.v
theories/Missing.v
theories/PropsMissing.v
