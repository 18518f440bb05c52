-Q theories Verif
theories/Base.v
theories/Ops.v
theories/ModelCore.v
theories/ModelUtils.v
theories/ModelLinear.v
theories/ModelNearest.v
theories/ModelCubic.v
theories/ModelOneDim.v
theories/RInst.v
theories/FInst.v
theories/Spec.v
theories/CoreLemmas.v
theories/TensorLemmas.v
theories/MethodLemmas.v
theories/SearchLemmas.v
theories/MethodChar.v
theories/GenLemmas.v
theories/GenProofs.v
theories/GenProofs2.v
theories/GenProofs3.v
theories/ExampleData.v
theories/SizeProofs.v
theories/BatchTotal.v
theories/PropertiesGeneric.v
theories/SpecReal.v
theories/RTensor.v
theories/RPoly.v
theories/R1D.v
theories/RChar.v
theories/Interpolators.v
theories/REval.v
theories/RCont.v
theories/RProofs.v
theories/RProofs2.v
theories/RProofs3.v
theories/ExampleReal.v
theories/PropertiesExact.v
theories/SpecOrder.v
theories/OrderLemmas.v
theories/OrderProofs.v
theories/Spec1D.v
theories/OneDimProofs.v
theories/FLemmas.v
theories/UtilProofs.v
theories/PropertiesOneDim.v
theories/PropertiesUtils.v
theories/SpecIEEE.v
theories/FProofs.v
theories/FProofs2.v
theories/PropertiesFloat.v
theories/FError.v
theories/SpecError.v
theories/FError2.v
theories/PropertiesError.v
theories/ModelPython.v
theories/SpecPython.v
theories/PyProofs.v
theories/PyProofs2.v
theories/PropertiesPython.v
theories/ModelSerial.v
theories/SpecSerial.v
theories/SerialProofs.v
theories/SerialProofs2.v
theories/PropertiesSerial.v
theories/SpecApprox.v
theories/Approx1D.v
theories/Approx.v
theories/Shape.v
theories/PropertiesApprox.v
theories/FApprox.v
theories/PropertiesAccuracy.v
theories/FNearest.v
theories/FNearestAny.v
theories/PropertiesNearest.v
theories/SpecCubicError.v
theories/FCubic.v
theories/FCubicReg.v
theories/FCubicFar.v
theories/SpecCubicReach.v
theories/FCubicExtrap.v
theories/FCubicExtrap2.v
theories/FCubicExtrap3.v
theories/PropertiesCubicReach.v
theories/FCubicRect.v
theories/FCubicApprox.v
theories/PropertiesCubicError.v
theories/SpecExtrap.v
theories/Extrap1D.v
theories/Extrap.v
theories/PropertiesExtrap.v
theories/SpecReach.v
theories/FExtrap.v
theories/FExtrap2.v
theories/PropertiesReach.v
theories/SpecSplit.v
theories/Split.v
theories/SplitProofs.v
theories/PropertiesSplit.v
theories/SpecFloat1D.v
theories/F1D.v
theories/F1D2.v
theories/PropertiesFloat1D.v
theories/PyBounds.v
theories/PropertiesPyBounds.v
theories/SpecUnits.v
theories/UnitProofs.v
theories/UnitProofs2.v
theories/NegProofs.v
theories/RelProofs.v
theories/PropertiesUnits.v
theories/SpecDocument.v
theories/SerialProofs3.v
theories/PropertiesDocument.v
theories/SpecAgree.v
theories/AgreeProofs.v
theories/PropertiesAgree.v
theories/OneDimMore.v
theories/BoundsMore.v
theories/PropertiesMore.v
theories/SpecLinspace.v
theories/FLinspace.v
theories/PropertiesLinspace.v
theories/SpecMoved.v
theories/Moved.v
theories/PropertiesMoved.v
theories/SpecDetect.v
theories/FDetect.v
theories/FPython.v
theories/PropertiesDetect.v
theories/ModelLayout.v
theories/SpecLayout.v
theories/LayoutProofs.v
theories/PropertiesLayout.v
theories/SpecPyCubic.v
theories/FPyCubic.v
theories/PropertiesPyCubic.v
theories/FPyNearest.v
theories/PropertiesPyNearest.v
theories/SpecPixel.v
theories/FSign.v
theories/PropertiesSign.v
theories/SpecBatch.v
theories/BatchProofs.v
theories/PropertiesBatch.v
theories/SpecExact.v
theories/FExact.v
theories/PropertiesDyadic.v
theories/SpecMonotone.v
theories/FMono.v
theories/PropertiesMonotone.v
theories/SpecMissing.v
theories/FMissing.v
theories/PropertiesMissing.v
theories/FSymmetry.v
theories/PropertiesSymmetry.v
theories/SpecTotal1D.v
theories/SpecCalls.v
theories/Total1D.v
theories/PropertiesTotal1D.v
theories/CallProofs.v
theories/PropertiesCalls.v
theories/SpecPyCalls.v
theories/PyCalls.v
theories/PropertiesPyCalls.v
theories/SpecCubicExact.v
theories/FCubicExact.v
theories/FCubicExact2.v
theories/PropertiesCubicExact.v
theories/FPyReach.v
theories/PropertiesPyReach.v
theories/SpecRange.v
theories/FRange.v
theories/PropertiesRange.v
theories/SpecSlope.v
theories/CubicSlope.v
theories/FSlope.v
theories/PropertiesSlope.v
theories/CubicMoved.v
theories/FMoved.v
theories/PropertiesMoved2.v
theories/SpecOvershoot.v
theories/Overshoot.v
theories/PropertiesOvershoot.v
theories/SpecRelabel.v
theories/Relabel.v
theories/PropertiesRelabel.v
theories/SpecExactOut.v
theories/FExactOut.v
theories/PropertiesExactOut.v
theories/SpecInts.v
theories/IntGrids.v
theories/PropertiesInts.v
theories/FCubicExactOut.v
theories/FCubicExactOut2.v
theories/PropertiesCubicExactOut.v
theories/SpecIntStore.v
theories/IntStore.v
theories/PropertiesIntStore.v
theories/SpecPyObjects.v
theories/PyObjects.v
theories/PropertiesPyObjects.v
theories/SpecPyEval.v
theories/PyEval.v
theories/PropertiesPyEval.v
theories/SpecUnitOneDim.v
theories/UnitOneDim.v
theories/PropertiesUnitOneDim.v
theories/Spec1DMaps.v
theories/OneDimMaps.v
theories/Properties1DMaps.v
theories/Spec1DShape.v
theories/OneDimShape.v
theories/Properties1DShape.v
theories/Spec1DLocal.v
theories/OneDimLocal.v
theories/Properties1DLocal.v
theories/SpecConst1D.v
theories/FConst1D.v
theories/PropertiesConst1D.v
theories/OneDimDown.v
theories/Properties1DDown.v
theories/OneDimAgree.v
theories/Properties1DAgree.v
theories/OneDimOrder.v
theories/Properties1DOrder.v
theories/FExact1D.v
theories/PropertiesExact1D.v
theories/PropertiesInstances.v
theories/PropertiesInstances2.v
theories/PropertiesInstances3.v
theories/Conformance.v
theories/OneDimBridge.v
theories/OneDimSmooth.v
theories/Properties1DSmooth.v
theories/Spec1DRun.v
theories/OneDimRun.v
theories/Properties1DRun.v
theories/OneDimSteps.v
theories/OneDimBasic.v
theories/Properties1DBasic.v
theories/F1DOut.v
theories/PropertiesFloat1DOut.v
theories/Spec1DReach.v
theories/OneDimReach.v
theories/Properties1DReach.v
theories/Spec1DHold.v
theories/OneDimHold.v
theories/Properties1DHold.v
