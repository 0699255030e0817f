-Q theories Verif
theories/Base.v
theories/SpecSSZ.v
theories/ModelSSZ.v
theories/ModelMath.v
theories/ModelHashTree.v
theories/ModelTree.v
theories/ModelEth.v
theories/SpecPhase0.v
theories/SpecObj.v
theories/LemBase.v
theories/LemBits.v
theories/LemTy.v
theories/LemSer.v
theories/LemDes.v
theories/LemCodec.v
theories/LemCodecSeq.v
theories/LemCodecAll.v
theories/SpecClasses.v
theories/LemMatch.v
theories/Samples.v
theories/ModelBytes.v
theories/SpecBytes.v
theories/ModelYaml.v
theories/SpecInt.v
theories/ModelInt.v
theories/SpecText.v
theories/SamplesYaml.v
theories/SpecWire.v
theories/LemWire.v
theories/LemHist.v
theories/LemCheck.v
theories/LemThmCodec.v
theories/SpecRemain.v
theories/LemRemain.v
theories/SpecUndef.v
theories/LemUndef.v
theories/LemThmUndef.v
theories/SpecLeft.v
theories/LemLeft.v
theories/ThmCodec.v
theories/LemMerkle.v
theories/SpecTree.v
theories/LemRoot.v
theories/LemOver.v
theories/LemBind.v
theories/SpecSize.v
theories/LemSize.v
theories/LemFit.v
theories/LemThmFit.v
theories/LemGrow.v
theories/ThmSize.v
theories/LemOverBind.v
theories/LemThmTree.v
theories/LemBreadth.v
theories/LemSpare.v
theories/ThmTree.v
theories/SpecMath.v
theories/LemMath.v
theories/ThmMath.v
theories/LemBytes.v
theories/ThmBytes.v
theories/ModelPred.v
theories/SpecPred.v
theories/SpecEqual.v
theories/LemPred.v
theories/LemEqual.v
theories/ThmPred.v
theories/SpecYaml.v
theories/LemYaml.v
theories/LemText.v
theories/LemDecode.v
theories/SpecLoose.v
theories/LemLoose.v
theories/LemThmText.v
theories/ThmYaml.v
theories/LemInt.v
theories/LemThmInt.v
theories/ThmInt.v
theories/ModelTest.v
theories/SpecTest.v
theories/LemTest.v
theories/LemTestExact.v
theories/ThmTest.v
theories/SpecSha.v
theories/ModelX86.v
theories/ModelAsm.v
theories/ModelAsm1.v
theories/ModelAsm4.v
theories/ModelAsm8.v
theories/ModelAsmNi.v
theories/SymWord.v
theories/LemSymWord.v
theories/SpecTime.v
theories/SymX86.v
theories/LemSymVec.v
theories/LemSymX86.v
theories/ModelImage.v
theories/SymFrag.v
theories/LemSymFrag.v
theories/SpecAsm.v
theories/LemX86.v
theories/LemDigest.v
theories/FragAsm.v
theories/CheckAsm.v
theories/LemPiece.v
theories/LemAsm.v
theories/LemAsm8.v
theories/SamplesAsm.v
theories/ModelHasher.v
theories/LemHasher.v
theories/SpecConc.v
theories/LemConc.v
theories/LemThreads.v
theories/SpecHasher.v
theories/LemSwap.v
theories/LemSha.v
theories/LemExec.v
theories/ThmSha.v
theories/LemTime.v
theories/ThmTime.v
theories/ModelShaTest.v
theories/SpecShaTest.v
theories/LemShaTest.v
theories/ThmShaTest.v
theories/ModelBench.v
theories/LemBench.v
theories/ThmBench.v
theories/ModelBytesTest.v
theories/SpecBytesTest.v
theories/LemBytesTest.v
theories/ThmBytesTest.v
theories/SpecRefuse.v
theories/LemRefuse.v
theories/ThmRefuse.v
theories/ModelSszMain.v
theories/SpecSszMain.v
theories/LemSszMain.v
theories/ThmSszMain.v
