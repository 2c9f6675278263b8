-Q theories Verif
theories/GoBase.v
theories/GoFloat.v
theories/GoString.v
theories/GoSort.v
theories/Mods.v
theories/Difficulty.v
theories/Timing.v
theories/Curves.v
theories/Objects.v
theories/Stacking.v
theories/Parser.v
theories/Preprocessing.v
theories/Skills.v
theories/DiffCalc.v
theories/PP.v
theories/Helpers.v
theories/BaseLemmas.v
theories/SpecMods.v
theories/ModsProofs.v
theories/PropMods.v
theories/FloatLemmas.v
theories/SortLemmas.v
theories/SpecTiming.v
theories/TimingProofs.v
theories/PropTiming.v
theories/SpecDifficulty.v
theories/DifficultyProofs.v
theories/PropDifficulty.v
theories/Float32Lemmas.v
theories/SpecStacking.v
theories/StackingProofs.v
theories/StackOffsetProofs.v
theories/PropStacking.v
theories/SpecParser.v
theories/StringLemmas.v
theories/ParserProofs.v
theories/ObjectProofs.v
theories/FinishProofs.v
theories/SettingsProofs.v
theories/InertProofs.v
theories/ScanProofs.v
theories/MapProofs.v
theories/PropParser.v
theories/KeyLemmas.v
theories/BoundLemmas.v
theories/SpecCurves.v
theories/BezierProofs.v
theories/CurveProofs.v
theories/CurveBounds.v
theories/CurveStart.v
theories/CurveLookup.v
theories/PropCurves.v
theories/SpecSliders.v
theories/SliderProofs.v
theories/SliderLoops.v
theories/PropSliders.v
theories/PropBinomial.v
theories/SpecSafety.v
theories/ArcProofs.v
theories/SafetyProofs.v
theories/PropSafety.v
theories/SpecDiff.v
theories/DiffProofs.v
theories/SectionProofs.v
theories/DiffTotal.v
theories/SkillProofs.v
theories/SignLemmas.v
theories/SliderFree.v
theories/PropDiff.v
theories/SpecPP.v
theories/PPProofs.v
theories/PPBounds.v
theories/PPChains.v
theories/PPFinal.v
theories/PPMono.v
theories/PPWide.v
theories/PPDiff.v
theories/PropPP.v
theories/FuelProofs.v
theories/PropFuel.v
theories/SpecMap.v
theories/EventProofs.v
theories/PropMap.v
theories/SpecText.v
theories/TextProofs.v
theories/PropText.v
theories/BezierTerm.v
theories/SpecTerm.v
theories/CurveTerm.v
theories/TermProofs.v
theories/PropTerm.v
theories/SpecLength.v
theories/LengthProofs.v
theories/PropLength.v
theories/SpecStrain.v
theories/StrainProofs.v
theories/PropStrain.v
theories/SpecSane.v
theories/ValueBounds.v
theories/RatingBounds.v
theories/ObjectBounds.v
theories/PathBounds.v
theories/PropRatings.v
theories/PropChain.v
theories/SpecEval.v
theories/PropEval.v
theories/SpecDist.v
theories/DistProofs.v
theories/PropDist.v
theories/LazyProofs.v
theories/PropLazy.v
theories/SpecNumbers.v
theories/NumberProofs.v
theories/PropNumbers.v
theories/SpecShape.v
theories/ShapeProofs.v
theories/NearLemmas.v
theories/CatmullProofs.v
theories/PropShape.v
theories/SpecArc.v
theories/ArcShape.v
theories/ArcCentre.v
theories/PropArc.v
theories/SpecPlay.v
theories/PlayTiming.v
theories/PlayProofs.v
theories/PropPlay.v
theories/RelLemmas.v
theories/SpecTempo.v
theories/TempoProofs.v
theories/TempoBase.v
theories/PropTempo.v
theories/SpecFormula.v
theories/RelPow.v
theories/FormulaParts.v
theories/FormulaRest.v
theories/FormulaProofs.v
theories/IdealLibm.v
theories/PropFormula.v
theories/SpecStacks.v
theories/StackRuns.v
theories/StackBreaks.v
theories/StackHeights.v
theories/PropStacks.v
theories/SpecSkill.v
theories/UnitLemmas.v
theories/AimFormula.v
theories/SpeedFormula.v
theories/RhythmFormula.v
theories/FlashFormula.v
theories/PropSkill.v
theories/SpecRating.v
theories/SortReal.v
theories/WeighFormula.v
theories/ValueFormula.v
theories/StrainFormula.v
theories/PeakFormula.v
theories/RatingFormula.v
theories/PropStars.v
theories/SpecTotal.v
theories/TotalFormula.v
theories/TotalSteady.v
theories/PropTotal.v
theories/SpecBetter.v
theories/PPBetter.v
theories/PropBetter.v
theories/VectorProofs.v
theories/PropVector.v
theories/SpecCurveApi.v
theories/CurveApiProofs.v
theories/PropCurveApi.v
theories/SpecModsPP.v
theories/PPMods.v
theories/PropModsPP.v
theories/SpecMoved.v
theories/MovedSim.v
theories/MovedFloats.v
theories/MovedProofs.v
theories/PropMoved.v
theories/SpecApi.v
theories/ApiProofs.v
theories/PropApi.v
theories/SpecLengthApi.v
theories/LengthApiProofs.v
theories/PropLengthApi.v
theories/SpecRearrange.v
theories/RearrangeProofs.v
theories/PropRearrange.v
theories/PropRetitled.v
theories/SpecGrowing.v
theories/GrowingProofs.v
theories/PropGrowing.v
theories/SpecCircle.v
theories/CircleProofs.v
theories/PropCircle.v
theories/SpecBezier.v
theories/BezierReal.v
theories/BezierNear.v
theories/BezierAlong.v
theories/PropBezier.v
theories/SpecBall.v
theories/BallProofs.v
theories/PropBall.v
theories/RideProofs.v
theories/PropRide.v
theories/SpecSpline.v
theories/SplineProofs.v
theories/PropSpline.v
theories/SpecTicks.v
theories/TickProofs.v
theories/PropTicks.v
theories/PerfectProofs.v
theories/PropPerfect.v
theories/SizeProofs.v
theories/PropSize.v
theories/BoundedProofs.v
theories/PropBounded.v
theories/RateProofs.v
theories/PropRates.v
theories/CurveAngles.v
theories/PropAngles.v
theories/SpecSpace.v
theories/PropSpace.v
theories/SpecLiterals.v
theories/LiteralProofs.v
theories/PropLiterals.v
theories/SpecSheet.v
theories/SheetProofs.v
theories/SheetBlocks.v
theories/SheetRead.v
theories/PropSheet.v
theories/PropSlides.v
theories/SpecPaper.v
theories/PropPaper.v
theories/PropCombo.v
theories/PropWorth.v
