-Q theories Verif
theories/Common.v
theories/Model/Averages.v
theories/Model/Cplx.v
theories/Model/Curve.v
theories/Model/CurveObject.v
theories/Model/Eql.v
theories/Model/Fdm.v
theories/Model/Gauss.v
theories/Model/Generic.v
theories/Model/Kishida.v
theories/Model/Layer.v
theories/Model/LogicTree.v
theories/Model/LogicTreeNode.v
theories/Model/Motion.v
theories/Model/MotionObject.v
theories/Model/Output.v
theories/Model/Profile.v
theories/Model/Published.v
theories/Model/Qwl.v
theories/Model/Results.v
theories/Model/Rounded.v
theories/Model/RoundedCurve.v
theories/Model/RoundedTree.v
theories/Model/Shake.v
theories/Model/SoilCopy.v
theories/Model/SoilModels.v
theories/Model/Tables.v
theories/Model/Text.v
theories/Model/Tools.v
theories/Model/Variation.v
theories/Model/VariationGeneric.v
theories/Model/Wang.v
theories/Model/Waves.v
theories/Proof/AdjustProps.v
theories/Proof/AveragesFacts.v
theories/Proof/AveragesProps.v
theories/Proof/BuildFacts.v
theories/Proof/CommonFacts.v
theories/Proof/Compatible.v
theories/Proof/CompatibleEx.v
theories/Proof/CompatibleExists.v
theories/Proof/CompatibleLimit.v
theories/Proof/CompatibleRecord.v
theories/Proof/CovarFacts.v
theories/Proof/CplxFacts.v
theories/Proof/CurveContinuity.v
theories/Proof/CurveFacts.v
theories/Proof/CurveObjectProps.v
theories/Proof/CurveOrder.v
theories/Proof/CurveProps.v
theories/Proof/EnergyBalance.v
theories/Proof/EqlContinuity.v
theories/Proof/EqlFacts.v
theories/Proof/EqlKeeps.v
theories/Proof/EqlOutputsContinuity.v
theories/Proof/EqlPhysical.v
theories/Proof/EqlProps.v
theories/Proof/EqlRefute.v
theories/Proof/EqlRepeat.v
theories/Proof/EqlResults.v
theories/Proof/EqlRunContinuity.v
theories/Proof/FdmEx.v
theories/Proof/FdmFacts.v
theories/Proof/FdmKo.v
theories/Proof/FdmLinear.v
theories/Proof/FdmOutput.v
theories/Proof/FdmPhysical.v
theories/Proof/FdmProps.v
theories/Proof/FdmRepeat.v
theories/Proof/FdmResults.v
theories/Proof/FdmWaves.v
theories/Proof/FdmWeak.v
theories/Proof/GaussFacts.v
theories/Proof/GenericProps.v
theories/Proof/HyperbolicFacts.v
theories/Proof/HyperbolicProps.v
theories/Proof/IntensityProps.v
theories/Proof/IterVaryProps.v
theories/Proof/Ka02Finite.v
theories/Proof/KishidaFacts.v
theories/Proof/KishidaProps.v
theories/Proof/LastWaves.v
theories/Proof/LayerEquality.v
theories/Proof/LayerFacts.v
theories/Proof/LogicTreeComplete.v
theories/Proof/LogicTreeCount.v
theories/Proof/LogicTreeDup.v
theories/Proof/LogicTreeFacts.v
theories/Proof/LogicTreeFile.v
theories/Proof/LogicTreeIndep.v
theories/Proof/LogicTreeListing.v
theories/Proof/LogicTreeProps.v
theories/Proof/LongPeriod.v
theories/Proof/MasingProps.v
theories/Proof/ModelSoils.v
theories/Proof/ModelTrend.v
theories/Proof/MotionFacts.v
theories/Proof/MotionObjectFacts.v
theories/Proof/MotionProps.v
theories/Proof/NumberText.v
theories/Proof/OutputFacts.v
theories/Proof/OutputProps.v
theories/Proof/OutputValues.v
theories/Proof/OutputsContinuity.v
theories/Proof/Polyline.v
theories/Proof/ProfileDivided.v
theories/Proof/ProfileFacts.v
theories/Proof/ProfileOps.v
theories/Proof/ProfileProps.v
theories/Proof/ProfileReads.v
theories/Proof/ProfileRefine.v
theories/Proof/ProfileRefute.v
theories/Proof/PublishedProps.v
theories/Proof/QwlBounds.v
theories/Proof/QwlCall.v
theories/Proof/QwlFacts.v
theories/Proof/QwlProps.v
theories/Proof/RecordTimes.v
theories/Proof/RepeatEx.v
theories/Proof/ResponseEnergy.v
theories/Proof/ResultsDefined.v
theories/Proof/ResultsEx.v
theories/Proof/ResultsProps.v
theories/Proof/ResultsRuns.v
theories/Proof/RoundCurve.v
theories/Proof/RoundFacts.v
theories/Proof/RoundProfile.v
theories/Proof/RoundToro.v
theories/Proof/RoundTree.v
theories/Proof/ScatterProps.v
theories/Proof/ShakeEx.v
theories/Proof/ShakeProfile.v
theories/Proof/ShakeProps.v
theories/Proof/ShortPeriod.v
theories/Proof/SoilCopy.v
theories/Proof/SoilVarProps.v
theories/Proof/SpreadProps.v
theories/Proof/StepFacts.v
theories/Proof/StrainRows.v
theories/Proof/TableProps.v
theories/Proof/TextProps.v
theories/Proof/ThicknessProps.v
theories/Proof/ToolsProps.v
theories/Proof/ToroFacts.v
theories/Proof/TwoParamProps.v
theories/Proof/VariationEx.v
theories/Proof/VariationGeneric.v
theories/Proof/VelocityProps.v
theories/Proof/WangFacts.v
theories/Proof/WangProps.v
theories/Proof/WangShape.v
theories/Proof/WaveBounds.v
theories/Proof/WaveContinuity.v
theories/Proof/WaveDepths.v
theories/Proof/WaveEnergy.v
theories/Proof/WaveFacts.v
theories/Proof/WaveLow.v
theories/Proof/WaveProps.v
theories/Proof/WaveScale.v
theories/Proof/WaveSplit.v
theories/Proof/WaveStanding.v
theories/Proof/WaveUnique.v
theories/Proof/WeakMotion.v
theories/Props/PAmplification.v
theories/Props/PAverages.v
theories/Props/PCompatible.v
theories/Props/PContinuity.v
theories/Props/PCurve.v
theories/Props/PCurveObject.v
theories/Props/PEnergy.v
theories/Props/PEql.v
theories/Props/PEqlCont.v
theories/Props/PFdm.v
theories/Props/PFdmPhysical.v
theories/Props/PFdmWeak.v
theories/Props/PGeneric.v
theories/Props/PIntensity.v
theories/Props/PKa02Finite.v
theories/Props/PKishida.v
theories/Props/PLastWaves.v
theories/Props/PLayer.v
theories/Props/PLayering.v
theories/Props/PLogicTree.v
theories/Props/PLogicTreeCount.v
theories/Props/PLogicTreeDup.v
theories/Props/PLogicTreeFile.v
theories/Props/PLogicTreeIndep.v
theories/Props/PLogicTreeListing.v
theories/Props/PLongPeriod.v
theories/Props/PMasing.v
theories/Props/PModelSoils.v
theories/Props/PMotion.v
theories/Props/PNumbers.v
theories/Props/POutput.v
theories/Props/POutputsCont.v
theories/Props/PPolyline.v
theories/Props/PProfile.v
theories/Props/PPublished.v
theories/Props/PQwl.v
theories/Props/PQwlBounds.v
theories/Props/PQwlCall.v
theories/Props/PResponse.v
theories/Props/PResults.v
theories/Props/PRoundCurve.v
theories/Props/PRoundTree.v
theories/Props/PRounded.v
theories/Props/PScatter.v
theories/Props/PSettle.v
theories/Props/PShake.v
theories/Props/PShortPeriod.v
theories/Props/PSoilCopy.v
theories/Props/PSoilModels.v
theories/Props/PSoilVar.v
theories/Props/PSpread.v
theories/Props/PStanding.v
theories/Props/PTables.v
theories/Props/PText.v
theories/Props/PThickness.v
theories/Props/PTimes.v
theories/Props/PTools.v
theories/Props/PTrends.v
theories/Props/PVariationGeneric.v
theories/Props/PVelocity.v
theories/Props/PWang.v
theories/Props/PWaveDepths.v
theories/Props/PWaveField.v
theories/Props/PWaves.v
theories/Props/PWeakMotion.v
theories/Spec/AbstractProfile.v
theories/Spec/AverageSpec.v
theories/Spec/CompatibleSpec.v
theories/Spec/ContinuitySpec.v
theories/Spec/CurveObjectSpec.v
theories/Spec/CurveSpec.v
theories/Spec/DepthSpec.v
theories/Spec/EnergySpec.v
theories/Spec/EqlContinuitySpec.v
theories/Spec/EqlSpec.v
theories/Spec/EqualitySpec.v
theories/Spec/FdmPhysicalSpec.v
theories/Spec/FdmSpec.v
theories/Spec/FileSpec.v
theories/Spec/GenericSpec.v
theories/Spec/HistorySpec.v
theories/Spec/IntensitySpec.v
theories/Spec/KishidaSpec.v
theories/Spec/LayerSpec.v
theories/Spec/LogicTreeCountSpec.v
theories/Spec/LogicTreeListing.v
theories/Spec/LogicTreeSpec.v
theories/Spec/LowSpec.v
theories/Spec/MotionSpec.v
theories/Spec/NumberSpec.v
theories/Spec/OutputSpec.v
theories/Spec/PolylineSpec.v
theories/Spec/ProfileSpec.v
theories/Spec/PublishedSpec.v
theories/Spec/QwlCallSpec.v
theories/Spec/QwlSpec.v
theories/Spec/ReadSpec.v
theories/Spec/ResultsSpec.v
theories/Spec/RoundCurveSpec.v
theories/Spec/RoundSpec.v
theories/Spec/RoundTreeSpec.v
theories/Spec/SoilCopySpec.v
theories/Spec/SoilModelSpec.v
theories/Spec/StepSpec.v
theories/Spec/TextSpec.v
theories/Spec/ToolsSpec.v
theories/Spec/VariationGenericSpec.v
theories/Spec/VariationSpec.v
theories/Spec/WangSpec.v
theories/Spec/WaveSpec.v
theories/Spec/WeakSpec.v
