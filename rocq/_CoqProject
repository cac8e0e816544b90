-Q theories Verif
theories/Base.v
theories/BaseLemmas.v
theories/SpecSlice.v
theories/KRange.v
theories/PRange.v
theories/SpecForm.v
theories/PForm.v
theories/ThmC01.v
theories/Content.v
theories/SpecArray.v
theories/KCore.v
theories/Core.v
theories/OmapLemmas.v
theories/PCore.v
theories/PCarry.v
theories/PAt.v
theories/SpecValid.v
theories/PValid.v
theories/ExampleArrays.v
theories/ThmC02.v
theories/ThmC03.v
theories/ThmC04.v
theories/ThmC05.v
theories/LoopLemmas.v
theories/KConvert.v
theories/Convert.v
theories/PList.v
theories/PConvert.v
theories/SpecConvert.v
theories/ThmC06.v
theories/KOption.v
theories/Option.v
theories/SpecOption.v
theories/POption.v
theories/ThmC07.v
theories/ThmC08.v
theories/SpecAxis.v
theories/PNat.v
theories/KAxis.v
theories/Axis.v
theories/PAxis.v
theories/PLocalIndex.v
theories/ThmC11.v
theories/SpecCombinations.v
theories/KCombinations.v
theories/Combinations.v
theories/PCombos.v
theories/PCombinations.v
theories/ThmC12.v
theories/KMerge.v
theories/Merge.v
theories/SpecMerge.v
theories/PPromote.v
theories/PTidy.v
theories/PMergeable.v
theories/PMergeK.v
theories/PMerge.v
theories/PMergeC.v
theories/PMergeR.v
theories/PMergeM.v
theories/ThmC14.v
theories/PSimplify.v
theories/ThmC17.v
theories/ThmC18.v
theories/KPad.v
theories/Pad.v
theories/SpecPad.v
theories/PPadK.v
theories/PPad.v
theories/ThmC13.v
theories/Num.v
theories/SpecNum.v
theories/PNum.v
theories/ThmC10.v
theories/Flatten.v
theories/SpecFlatten.v
theories/PFlatten.v
theories/ThmC09.v
theories/PLift.v
theories/Fillna.v
theories/SpecFillna.v
theories/PFillna.v
theories/ThmC21.v
theories/KReduce.v
theories/Reduce.v
theories/SpecReduce.v
theories/PReduceK.v
theories/PReduceF.v
theories/PReduceO.v
theories/PReduceL.v
theories/PReduceV.v
theories/PReduce.v
theories/PReduceTop.v
theories/PReduceN.v
theories/PReduceN2.v
theories/PReduceN3.v
theories/ThmC15.v
theories/ThmC16.v
theories/KSort.v
theories/Sort.v
theories/PQuick.v
theories/SpecSort.v
theories/PSortK.v
theories/PSort.v
theories/KGetitem.v
theories/Getitem.v
theories/SpecGetitem.v
theories/PGetitemK.v
theories/PGetitem1.v
theories/PField.v
theories/PGetitem.v
theories/PGetitem2.v
theories/SpecJagged.v
theories/PJagged.v
theories/PJagged2.v
theories/PJagged3.v
theories/PJagged4.v
theories/ThmC20.v
theories/ThmC19.v
theories/Forth.v
theories/ForthParse.v
theories/ForthTests.v
theories/SpecForth.v
theories/PForthRun.v
theories/PForthArith.v
theories/ThmC31.v
theories/PForthOut.v
theories/PForthRead.v
theories/PForthRead2.v
theories/ThmC32.v
theories/SpecForthRun.v
theories/PForthStep.v
theories/PForthCtl.v
theories/ThmC30.v
theories/PForthPause.v
theories/ThmC28.v
theories/PForthSingle.v
theories/ThmC29.v
theories/PForthLoop.v
theories/ThmC33.v
theories/Growable.v
theories/SpecGrowable.v
theories/PGrowable.v
theories/ThmC26.v
theories/HBuilder.v
theories/SpecHistory.v
theories/PHBuilder.v
theories/PHBuilder2.v
theories/PHBuilder3.v
theories/ThmC24.v
theories/Builder.v
theories/SpecBuilder.v
theories/PBuilder.v
theories/PBuilderStep.v
theories/PBuilderTuple.v
theories/PBuilderRecord.v
theories/PBuilderUnion.v
theories/PBuilderMerge.v
theories/PBuilderSnap.v
theories/PBuilderSpec.v
theories/PBuilderAll.v
theories/ThmC22.v
theories/ThmC23.v
theories/PBuilderClear.v
theories/ThmC25.v
theories/Partition.v
theories/SpecPartition.v
theories/PPartition.v
theories/PRepartition.v
theories/ThmC34.v
theories/Virtual.v
theories/SpecVirtual.v
theories/PVirtual.v
theories/PVirtual2.v
theories/PVirtual3.v
theories/PVirtual4.v
theories/ThmC35.v
theories/Identities.v
theories/SpecIdentities.v
theories/PIdentities.v
theories/PIdentities2.v
theories/PIdentities3.v
theories/PIdentities4.v
theories/PIdentities5.v
theories/PIdentities6.v
theories/PIdentities7.v
theories/PIdentities8.v
theories/ThmC36.v
theories/SpecForthSafe.v
theories/PForthSafe1.v
theories/PForthSafe2.v
theories/PForthSafe3.v
theories/PForthSafe4.v
theories/ThmC27.v
theories/Types.v
theories/SpecTypes.v
theories/PTypes.v
theories/PTypes2.v
theories/PTypes3.v
theories/ThmC37.v
theories/Json.v
theories/SpecJson.v
theories/PJson.v
theories/PJson2.v
theories/PJson3.v
theories/ThmC38.v
theories/Strided.v
theories/SpecStrided.v
theories/PStrided.v
theories/PStrided2.v
theories/PStrided3.v
theories/PStrided4.v
theories/ThmC39.v
theories/KAsSlice.v
theories/AsSlice.v
theories/SpecAsSlice.v
theories/PAsSlice1.v
theories/PAsSlice2.v
theories/PAsSlice3.v
theories/PAsSlice4.v
theories/PAsSlice5.v
theories/PAsSlice6.v
theories/PAsSlice7.v
theories/ThmC40.v
theories/Uproot.v
theories/SpecUproot.v
theories/PUproot.v
theories/ThmC41.v
theories/Forms.v
theories/SpecForms.v
theories/PForms.v
theories/PForms2.v
theories/ThmC42.v
theories/LayoutBuild.v
theories/SpecLayout.v
theories/PLayoutVm.v
theories/PLayoutWord.v
theories/PLayoutEat.v
theories/PLayoutTop.v
theories/PLayoutCalls.v
theories/PLayoutSnap.v
theories/PLayoutMain.v
theories/PLayoutToken.v
theories/PLayoutParse.v
theories/PLayoutNames.v
theories/PLayoutCompile.v
theories/PLayoutCompile2.v
theories/PLayoutProgram.v
theories/ThmC43.v
theories/Unique.v
theories/SpecUnique.v
theories/PUnique.v
theories/PUnique2.v
theories/PUnique3.v
theories/PUnique4.v
theories/ThmC44.v
theories/Astype.v
theories/SpecAstype.v
theories/PAstype.v
theories/ThmC45.v
theories/Copy.v
theories/SpecCopy.v
theories/PCopy.v
theories/ThmC46.v
theories/Fields.v
theories/SpecFields.v
theories/PFields.v
theories/ThmC19b.v
theories/Nbytes.v
theories/SpecNbytes.v
theories/PNbytes.v
theories/ThmC47.v
theories/Setitem.v
theories/SpecSetitem.v
theories/PSetitem.v
theories/ThmC48.v
theories/Keys.v
theories/SpecKeys.v
theories/PKeys.v
theories/ThmC49.v
theories/Fieldpos.v
theories/PFieldpos.v
theories/ThmC50.v
