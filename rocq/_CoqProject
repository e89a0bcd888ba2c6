-Q theories Verif
theories/PyBase.v
theories/Struct.v
theories/Mesh.v
theories/Arith.v
theories/F64.v
theories/Edit.v
theories/Obj.v
theories/Spec.v
theories/CodecBase.v
theories/CodecRaw.v
theories/CodecParam.v
theories/CodecLocal.v
theories/SpecF.v
theories/F64Facts.v
theories/CodecFacts.v
theories/Witness.v
theories/SpecFormat.v
theories/FormatFacts.v
theories/DivFacts.v
theories/SpecEdit.v
theories/SpecBounds.v
theories/TravFacts.v
theories/VertFacts.v
theories/RArith.v
theories/RFacts.v
theories/LayoutFacts.v
theories/MergeFacts.v
theories/ReorderFacts.v
theories/BoundFacts.v
theories/CenterFacts.v
theories/RecentreFacts.v
theories/SpecAcc.v
theories/AccFacts.v
theories/PiFacts.v
theories/WitnessEdit.v
theories/WitnessAcc.v
theories/WitnessMerge.v
theories/WitnessReorder.v
theories/WitnessBounds.v
theories/SpecObj.v
theories/PathFacts.v
theories/FileFacts.v
theories/ObjFacts.v
theories/WitnessObj.v
theories/SpecEq.v
theories/EqFacts.v
theories/WitnessEq.v
theories/SpecHist.v
theories/HistFacts.v
theories/WitnessHist.v
theories/Col.v
theories/SpecCol.v
theories/ColFacts.v
theories/SpecColFormat.v
theories/ColFormatFacts.v
theories/ColMergeFacts.v
theories/WitnessCol.v
theories/Heap.v
theories/HeapFacts.v
theories/WitnessHeap.v
theories/SpecSize.v
theories/SizeFacts.v
theories/WitnessSize.v
theories/Old.v
theories/SpecOld.v
theories/OldFacts.v
theories/WitnessOld.v
theories/OldEdit.v
theories/Trans.v
theories/SpecOldEdit.v
theories/OldEditFacts.v
theories/OldEditThms.v
theories/WitnessOldEdit.v
theories/SpecTrans.v
theories/TransFacts.v
theories/DeleteFacts.v
theories/EditVFacts.v
theories/Scripts.v
theories/ScriptFacts.v
theories/CopyFacts.v
theories/WitnessTrans.v
theories/WitnessScripts.v
theories/ColEq.v
theories/SpecColEq.v
theories/ColEqFacts.v
theories/Vec.v
theories/SpecVec.v
theories/VecFacts.v
theories/Recipe.v
theories/SpecRecipe.v
theories/RecipeFacts.v
theories/WitnessRecipe.v
theories/OldEq.v
theories/SpecOldEq.v
theories/OldEqFacts.v
theories/WitnessOldEq.v
theories/VMapFacts.v
theories/CommFacts.v
theories/MergeOrderFacts.v
theories/MoveFacts.v
theories/WitnessComm.v
theories/SpecMin.v
theories/BoundMergeFacts.v
theories/Bf2.v
theories/SpecBf2.v
theories/ReFacts.v
theories/Bf2Facts.v
theories/Bf2Dirs.v
theories/Bf2Mod.v
theories/Bf2Cells.v
theories/WitnessBf2.v
theories/RotScript.v
theories/RotScriptFacts.v
theories/Samples.v
theories/SpecSamples.v
theories/SamplesFacts.v
theories/WitnessSamples.v
theories/Display.v
theories/SpecDisplay.v
theories/DisplayFacts.v
theories/WitnessDisplay.v
theories/SpecSurface.v
theories/SurfaceFacts.v
theories/Mock.v
theories/SpecMock.v
theories/MockFacts.v
theories/WitnessSurface.v
theories/Bf2Wings.v
theories/SpecWings.v
theories/WingsFacts.v
theories/WitnessWings.v
theories/SpecLossless.v
theories/LosslessFacts.v
theories/WitnessLossless.v
theories/HeapEdit.v
theories/SpecProg.v
theories/ProgFacts.v
theories/WitnessProg.v
theories/Handle.v
theories/SpecHandle.v
theories/HandleFacts.v
theories/WitnessHandle.v
theories/SpecExn.v
theories/ExnFacts.v
theories/ExnEdit.v
theories/WitnessExn.v
theories/SpecMany.v
theories/ManyFacts.v
theories/WitnessMany.v
theories/ManySurface.v
theories/Sample.v
theories/WitnessSample.v
theories/SpecBoth.v
theories/BothFacts.v
theories/BothSurface.v
theories/SpecDrift.v
theories/DriftFacts.v
theories/WitnessDrift.v
theories/Properties.v
theories/Conc.v
theories/SpecConc.v
theories/ConcFacts.v
theories/Thread.v
theories/SpecThread.v
theories/ThreadFacts.v
theories/WitnessConc.v
theories/ReadMe.v
theories/SpecReadMe.v
theories/ReadMeFacts.v
theories/WitnessReadMe.v
theories/SpecHand.v
theories/HandFacts.v
theories/WitnessHand.v
theories/DiskFull.v
theories/DiskFullFacts.v
theories/WinName.v
theories/SpecWinName.v
theories/WinFacts.v
theories/SpecMoveBound.v
theories/MoveBoundFacts.v
theories/MoveBoundAcc.v
theories/WitnessMoveBound.v
theories/SpecLoadCost.v
theories/LoadCost.v
theories/LoadCostFacts.v
theories/SpecEditSize.v
theories/EditSizeFacts.v
theories/WitnessEditSize.v
theories/SpecText.v
theories/Text.v
theories/TextFacts.v
theories/Properties2.v
