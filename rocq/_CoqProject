-Q theories Verif
theories/Py.v
theories/Num.v
theories/MCommon.v
theories/MArray.v
theories/MIndexMap.v
theories/MProcess.v
theories/Spec.v
theories/PBase.v
theories/PChain.v
theories/PStruct.v
theories/PNode.v
theories/PList.v
theories/MBuild.v
theories/PElem.v
theories/PFacts.v
theories/NumR.v
theories/NumF.v
theories/NumZ.v
theories/PReal.v
theories/PIeee.v
theories/Thm_Lists.v
theories/Thm_Nodes.v
theories/SpecNum.v
theories/PAct.v
theories/SpecReal.v
theories/PRange.v
theories/PIeeeArith.v
theories/PIeeeRange.v
theories/Thm_Range.v
theories/PMatrix.v
theories/PBypass.v
theories/PLut1D.v
theories/PMap.v
theories/PSample.v
theories/PLut3D.v
theories/PLut3DMore.v
theories/PLut3DStride.v
theories/Thm_Matrix.v
theories/Thm_LUT1D.v
theories/Thm_LUT3D.v
theories/PPow.v
theories/PGamma.v
theories/PLog.v
theories/PEC.v
theories/PCdlForm.v
theories/PCdl.v
theories/PIeeeCdl.v
theories/Thm_CDL.v
theories/Thm_Curves.v
theories/SpecIeee.v
theories/PHalfCode.v
theories/PHalf.v
theories/PHalfLut.v
theories/Thm_Half.v
theories/MOcio.v
theories/SpecOcio.v
theories/POcio.v
theories/Thm_Ocio.v
theories/MSampling.v
theories/MText.v
theories/MRegistry.v
theories/MFilter.v
theories/SpecSampling.v
theories/PSampling.v
theories/PInverse.v
theories/PInverse2.v
theories/PInverse3.v
theories/PLattice.v
theories/PGrid.v
theories/PShaper.v
theories/PExport.v
theories/Thm_Sampling.v
theories/SpecTools.v
theories/PRegistry.v
theories/PFilter.v
theories/PPack.v
theories/Thm_Tools.v
theories/MNumText.v
theories/NumFText.v
theories/PNumText.v
theories/PTextIeee.v
theories/MXml.v
theories/SpecXml.v
theories/PXmlArray.v
theories/PXmlIeee.v
theories/PXmlGate.v
theories/PXmlRead.v
theories/Thm_ArrayText.v
theories/Thm_Read.v
theories/SpecWrite.v
theories/PXmlWrite.v
theories/PXmlInline.v
theories/PTextSig.v
theories/PWriteCase.v
theories/Thm_Write.v
theories/MFiles.v
theories/SpecFiles.v
theories/PFiles.v
theories/PFilesRead.v
theories/PIndent.v
theories/PToyFiles.v
theories/Thm_Files.v
theories/MLut.v
theories/SpecLut.v
theories/PLutText.v
theories/PDecimals.v
theories/PSpi.v
theories/PSpi3.v
theories/PCsp.v
theories/PCsp2.v
theories/PCsp3.v
theories/PCtl.v
theories/PCtl3.v
theories/PLutIeee.v
theories/Thm_Lut.v
theories/SpecPrelut.v
theories/PPrelut.v
theories/PCsp4.v
theories/MConvert.v
theories/PConvert.v
theories/SpecConvert.v
theories/PImport.v
theories/PTools.v
theories/PLineEnds.v
theories/PExportClf.v
theories/PConvertIeee.v
theories/Thm_Convert.v
theories/MListApi.v
theories/SpecDepth.v
theories/PDepth.v
theories/Thm_Depth.v
theories/MIndexCache.v
theories/PIndexCache.v
theories/PIndexCacheTen.v
theories/Thm_IndexCache.v
theories/SpecStable.v
theories/PStableNum.v
theories/PStable.v
theories/PStableCase.v
theories/Thm_Stable.v
theories/MInfo.v
theories/SpecInfo.v
theories/PInfo.v
theories/PInfoValues.v
theories/PInfoComments.v
theories/Thm_Info.v
theories/PRound.v
theories/SpecCode.v
theories/PCode.v
theories/Thm_Code.v
theories/SpecClose.v
theories/PClose.v
theories/PCloseLut.v
theories/PCloseRange.v
theories/PSlope3D.v
theories/PClose3D.v
theories/Thm_Close.v
theories/MFilterTool.v
theories/SpecFilterTool.v
theories/PFilterCode.v
theories/PFilterTool.v
theories/PFilterMain.v
theories/Thm_FilterTool.v
theories/SpecFloatImage.v
theories/PFilterFloat.v
theories/PFilterFloat2.v
theories/Thm_FloatImage.v
theories/SpecSame.v
theories/PRelative.v
theories/PIdentity.v
theories/PIdentityCases.v
theories/Thm_Identity.v
theories/SpecMeta.v
theories/PMeta.v
theories/PMetaCase.v
theories/Thm_Meta.v
theories/SpecReadBack.v
theories/PReadBack.v
theories/PReadBack3.v
theories/PReadBackTools.v
theories/Thm_ReadBack.v
theories/SpecErrors.v
theories/PErrors.v
theories/PErrorsLut.v
theories/PErrorsRange.v
theories/PErrorsNest.v
theories/SpecPower.v
theories/PErrorsCdl.v
theories/Thm_Errors.v
theories/MXmlText.v
theories/SpecXmlText.v
theories/PXmlText.v
theories/PXmlTree.v
theories/PXmlTextDoc.v
theories/PXmlTextCase.v
theories/Thm_XmlText.v
theories/SpecSpelling.v
theories/PSpelling.v
theories/PSpellingRead.v
theories/PSpellingCase.v
theories/Thm_Spelling.v
theories/SpecBroken.v
theories/PBroken.v
theories/Thm_Broken.v
theories/SpecWritten.v
theories/PWritten.v
theories/PReordered.v
theories/Thm_Written.v
theories/MBuilt.v
theories/SpecBuilt.v
theories/PBuilt.v
theories/Thm_Built.v
theories/MMains.v
theories/PMains.v
theories/Thm_Mains.v
theories/PSampledIeee.v
theories/PSampledCube.v
theories/Thm_Sampled.v
theories/SpecPicture.v
theories/PPicture.v
theories/Thm_Picture.v
theories/SpecBounds.v
theories/PBounds.v
theories/PBoundsCases.v
theories/PBoundsOrder.v
theories/PBoundsAny.v
theories/SpecEdges.v
theories/PEdges.v
theories/Thm_Bounds.v
