-Q theories Verif

theories/Base.v
theories/Spec.v
theories/BaseFacts.v
theories/WordFacts.v
theories/BitVecModel.v
theories/BitVecProofs.v
theories/BitVecProofs2.v
theories/BitVecEdit.v
theories/PropsBitVec.v
theories/RsVecModel.v
theories/PdepProofs.v
theories/RsVecProofs.v
theories/RsVecSelect.v
theories/IterSpec.v
theories/IterFacts.v
theories/RsIterModel.v
theories/RsIterProofs.v
theories/RsEqProofs.v
theories/PropsRsVec.v
theories/IterLazy.v
theories/GenIterModel.v
theories/GenIterProofs.v
theories/PropsIter.v
theories/EFModel.v
theories/EFProofs.v
theories/EFQuery.v
theories/EFIterProofs.v
theories/PropsEF.v
theories/SparseModel.v
theories/PropsSparse.v
theories/RmqModel.v
theories/RmqProofs.v
theories/FastRmqProofs.v
theories/PropsRmq.v
theories/PropsRmqTies.v
theories/WaveletModel.v
theories/WaveletProofs.v
theories/WaveletOrder.v
theories/WaveletBuild.v
theories/WaveletCount.v
theories/WaveletQuery.v
theories/WaveletAnswer.v
theories/PropsWavelet.v
theories/BpModel.v
theories/BpExcess.v
theories/BpMmt.v
theories/BpSearch.v
theories/BpBlock.v
theories/BpLookup.v
theories/BpTreeSpec.v
theories/BpTreeFacts.v
theories/BpTreeProofs.v
theories/PropsBp.v
theories/BitSetModel.v
theories/PropsBitSet.v
theories/PropsSimd.v
theories/PropsWaveletBuild.v
theories/HeapModel.v
theories/PropsHeap.v
theories/ReleaseModel.v
theories/PropsRelease.v
theories/PropsAgree.v
theories/CostModel.v
theories/PropsCost.v
theories/PropsCostEF.v
theories/CostBpModel.v
theories/PropsCostBp.v
theories/PropsEFUnchecked.v
theories/PdepModel.v
theories/PropsPdep.v
theories/FloatModel.v
theories/PropsFloat.v
theories/PropsWaveletUnchecked.v
theories/BpReleaseModel.v
theories/PropsBpRelease.v
theories/PropsFastInverted.v
theories/PropsSurplus.v
theories/PropsWaveletWide.v
theories/PropsStored.v
theories/PropsRmqBounds.v
theories/PropsFastRelease.v
theories/CostQueryModel.v
theories/PropsCostQuery.v
theories/CostWaveletModel.v
theories/PropsCostWavelet.v
theories/CostIterModel.v
theories/PropsCostIter.v
theories/SparseReleaseModel.v
theories/PropsSparseAny.v
theories/PropsCostDrain.v
theories/CostEFIterModel.v
theories/PropsCostEFIter.v
theories/CostBackModel.v
theories/PropsCostBack.v
theories/CostBuildModel.v
theories/PropsCostBuild.v
theories/BuildReleaseModel.v
theories/PropsBuildRelease.v
theories/UncheckedReleaseModel.v
theories/EFReleaseModel.v
theories/PropsUncheckedRelease.v
theories/CostBuild2Model.v
theories/PropsCostBuild2.v
theories/WaveletUncheckedReleaseModel.v
theories/PropsWaveletUncheckedRelease.v
theories/PropsEFRelease.v
theories/PropsEFUnsorted.v
theories/PropsMmt.v
theories/PropsUnbalanced.v
theories/BpNodeReleaseModel.v
theories/PropsBpNodeRelease.v
theories/PropsBpClosing.v
theories/PropsSubtree.v
theories/PropsReadRelease.v
theories/PropsIndependent.v
theories/PropsAgreeSorted.v
theories/SparseFullReleaseModel.v
theories/EFIterReleaseModel.v
theories/PropsSparseRelease.v
theories/PropsEFIterRelease.v
theories/PropsEFUnsortedIter.v
theories/PropsTreeLaws.v
theories/PropsQueryLaws.v
