-Q theories Verif
theories/Base.v
theories/Books.v
theories/Chars.v
theories/PropChars.v
theories/Regex.v
theories/Data.v
theories/DefaultData.v
theories/MVerse.v
theories/MRange.v
theories/Spec.v
theories/PList.v
theories/PCore.v
theories/PNav.v
theories/PVerse.v
theories/PDefault.v
theories/PropVerse.v
theories/PRange.v
theories/PSetOps.v
theories/PRuns.v
theories/PSplit.v
theories/PCount.v
theories/PCount2.v
theories/PTerm.v
theories/PSetSpec.v
theories/PropRange.v
theories/PUnit.v
theories/PUnit2.v
theories/PUnit3.v
theories/PFlags.v
theories/PropUnit.v
theories/MSeq.v
theories/MList.v
theories/PSort.v
theories/SpecList.v
theories/PRegroup.v
theories/PMerge.v
theories/PMerge2.v
theories/PListOps.v
theories/PListDiff.v
theories/PropList.v
theories/PropLaws.v
theories/PropWhole.v
theories/MGroup.v
theories/SpecGroup.v
theories/PGroup.v
theories/PGroup2.v
theories/PGroup3.v
theories/PGroup4.v
theories/PGroup5.v
theories/PGroup6.v
theories/PGroup7.v
theories/PGroup8.v
theories/PropGroup.v
theories/PCycle.v
theories/PropCycle.v
theories/MNode.v
theories/MSort.v
theories/MOrder.v
theories/SpecOrder.v
theories/SpecNode.v
theories/PNode.v
theories/PNode2.v
theories/PNode3.v
theories/PropNode.v
theories/PSort2.v
theories/POrder.v
theories/POrder2.v
theories/PropSort.v
theories/MOrder2.v
theories/POrder3.v
theories/POrder4.v
theories/POrder5.v
theories/PropOrder.v
theories/PAlone.v
theories/PropAlone.v
theories/MStr.v
theories/MParse.v
theories/SpecParse.v
theories/PLex.v
theories/PLong.v
theories/SpecName.v
theories/PName.v
theories/SpecMean.v
theories/PParse.v
theories/PParse2.v
theories/PropParse.v
theories/SpecAlike.v
theories/PAlike.v
theories/PropAlike.v
theories/PPrint.v
theories/PText.v
theories/PRound.v
theories/PropStr.v
theories/SpecShow.v
theories/PShow.v
theories/PropShow.v
theories/PShow2.v
theories/PropShow2.v
theories/MWorld.v
theories/PWorld.v
theories/PropWorld.v
theories/SpecRecall.v
theories/PRecall.v
theories/PropRecall.v
theories/MOps.v
theories/PropOps.v
theories/MNew.v
theories/SpecNew.v
theories/PNew.v
theories/PNew2.v
theories/PropNew.v
theories/MSelf.v
theories/PSelf.v
theories/PropSelf.v
theories/MText.v
theories/PropText.v
theories/SpecStack.v
theories/MStack.v
theories/PStack.v
theories/PStack2.v
theories/PropStack.v
theories/SpecDigits.v
theories/MDigits.v
theories/MDigits2.v
theories/PDigits.v
theories/PropDigits.v
theories/SpecIter.v
theories/MIter.v
theories/PIter.v
theories/PropIter.v
theories/PropNumber.v
theories/MPlace.v
theories/SpecPlace.v
theories/PPlace.v
theories/PropPlace.v
theories/PropTyping.v
theories/PropJoin.v
theories/PropCompose.v
theories/PropPieces.v
theories/PropLattice.v
theories/PropDigits2.v
theories/MIter2.v
theories/PropIter2.v
theories/MArgs.v
theories/PropArgs.v
theories/MTables.v
theories/PropTables.v
theories/MEq.v
theories/PropEq.v
theories/MCmp.v
theories/PropCmp.v
theories/MEq2.v
theories/PropEq2.v
theories/MHash.v
theories/PropHash.v
theories/TestCode.v
theories/Assumptions.v
