-Q theories Verif
theories/Base.v
theories/Spec.v
theories/SpecProofs.v
theories/GoLoop.v
theories/V1Model.v
theories/V2Model.v
theories/V1Enc.v
theories/GoIdeal.v
theories/V1Dec.v
theories/V2Dec.v
theories/V2Enc.v
theories/GoSpec.v
theories/GoProps.v
theories/GoProps2.v
theories/GoWidth.v
theories/BufSpec.v
theories/GoBuf.v
theories/GoThms.v
theories/GoThms2.v
theories/GoBuf2.v
theories/GoThms3.v
theories/PropEnc.v
theories/GoBuf3.v
theories/PropDec.v
theories/PropBuf.v
theories/Utf8.v
theories/RustModel.v
theories/RustSpec.v
theories/RustDec.v
theories/RustThms.v
theories/RustEnc.v
theories/RustThms2.v
theories/PropRust.v
theories/PoolModel.v
theories/PoolSpec.v
theories/PoolProofs.v
theories/PoolBuf.v
theories/PropPool.v
theories/TsModel.v
theories/TsSpec.v
theories/TsEnc.v
theories/TsThms.v
theories/TsThms2.v
theories/TsThms3.v
theories/TsText.v
theories/TsDec.v
theories/TsThms4.v
theories/TsThms5.v
theories/TsThms6.v
theories/TsThms7.v
theories/TsThms8.v
theories/PropTs.v
theories/CModel.v
theories/CSpec.v
theories/CThms.v
theories/PropC.v
theories/GenTables.v
theories/GenModel.v
theories/GenSpec.v
theories/GenLemmas.v
theories/GenFields.v
theories/GenDec.v
theories/GenThms.v
theories/GenThms2.v
theories/GenThms3.v
theories/GenTerm.v
theories/GenTerm2.v
theories/GenTerm3.v
theories/GenTerm4.v
theories/GenTerm5.v
theories/GenTab.v
theories/GenExt.v
theories/GenStuck.v
theories/GenThms4.v
theories/PropGen2.v
theories/EvolveSpec.v
theories/EvolveThms.v
theories/PropEvolve.v
theories/GenTrace.v
theories/TraceSpec.v
theories/GenTraceThms.v
theories/GenTraceInv.v
theories/GenTraceSplit.v
theories/GenTraceEnd.v
theories/GenPick.v
theories/GenPick2.v
theories/GenTorn.v
theories/PropGen3.v
theories/PropGen.v
theories/NameModel.v
theories/NameSpec.v
theories/NameThms.v
theories/NameThms2.v
theories/NameThms3.v
theories/NameThms4.v
theories/PropName.v
theories/RsGenModel.v
theories/RsGenSpec.v
theories/RsGenLemmas.v
theories/RsGenDec.v
theories/RsGenRound.v
theories/RsGenAny.v
theories/RsGenThms.v
theories/RsDeps.v
theories/PropRsGen.v
theories/PropDup.v
theories/EmitModel.v
theories/EmitSpec.v
theories/EmitThms.v
theories/EmitThms2.v
theories/EmitThms3.v
theories/CompSpec.v
theories/CompThms.v
theories/PropEmit.v
theories/CostSpec.v
theories/GoCost.v
theories/PropCost.v
theories/TsGenModel.v
theories/TsGenSpec.v
theories/TsGenThms.v
theories/TsGenThms2.v
theories/PropTsGen.v
theories/RsTrunc.v
theories/RsMore.v
theories/RsEvolve.v
theories/PropRsGen2.v
theories/AliasModel.v
theories/AliasSpec.v
theories/AliasThms.v
theories/AliasThms2.v
theories/AliasThms3.v
theories/PropAlias.v
theories/Vectors.v
theories/PkgModel.v
theories/PkgSpec.v
theories/PkgThms.v
theories/PkgThms2.v
theories/PkgThms3.v
theories/PropPkg.v
theories/RsPkgModel.v
theories/RsPkgSpec.v
theories/RsPkgThms.v
theories/RsPkgThms2.v
theories/RsPkgThms3.v
theories/PropRsPkg.v
theories/GoAst.v
theories/GoEmit.v
theories/GoRunSpec.v
theories/GoLink.v
theories/GoFrame.v
theories/GoExec.v
theories/GoScope.v
theories/GoSlices.v
theories/GoMsgs.v
theories/GoMaps.v
theories/GoDecode.v
theories/GoNew.v
theories/GoCallSpec.v
theories/GoCalls.v
theories/GoEnc.v
theories/GoEnc2.v
theories/GoCalls2.v
theories/GoCalls3.v
theories/GoCalls4.v
theories/PropGoRun.v
theories/GoTypes.v
theories/GoTypesSpec.v
theories/GoTypes2.v
theories/GoTypes3.v
theories/GoTypes4.v
theories/GoTypes5.v
theories/GoTypes6.v
theories/GoTypes7.v
theories/GoTypes8.v
theories/PropGoTypes.v
theories/TplText.v
theories/TplModel.v
theories/TplGo.v
theories/GoLex.v
theories/TplExec.v
theories/GoLexThms.v
theories/TplThms.v
theories/TplThms2.v
theories/TplThms3.v
theories/TplThms4.v
theories/TplThms5.v
theories/TplThms6.v
theories/TplThms7.v
theories/TplSpec.v
theories/TplThms8.v
theories/TplThms9.v
theories/TplThms10.v
theories/TplNames.v
theories/TplHead.v
theories/PropTpl.v
theories/RsAst.v
theories/RsEmit.v
theories/RsRunSpec.v
theories/RsRun1.v
theories/RsRun2.v
theories/RsRun3.v
theories/RsRun4.v
theories/RsRun5.v
theories/PropRsRun.v
theories/RsTplText.v
theories/RsLex.v
theories/RsTpl.v
theories/RsLexThms.v
theories/RsTplThms.v
theories/RsTplThms2.v
theories/RsTplThms3.v
theories/RsTplThms4.v
theories/RsTplThms5.v
theories/RsTplThms6.v
theories/RsTplSpec.v
theories/RsTplThms7.v
theories/PropRsTpl.v
theories/TsTplText.v
theories/TsLex.v
theories/TsTpl.v
theories/TsLexThms.v
theories/TsTplThms.v
theories/TsTplThms2.v
theories/TsTplThms3.v
theories/TsTplThms4.v
theories/TsTplThms5.v
theories/TsTplThms6.v
theories/TsTplSpec.v
theories/TsTplThms7.v
theories/TsTplThms8.v
theories/PropTsTpl.v
theories/GoParse.v
theories/GoParseThms.v
theories/GoParseThms2.v
theories/GoParseThms3.v
theories/GoParseThms4.v
theories/GoParseThms5.v
theories/PropGoParse.v
theories/LexExamples.v
theories/TplExamples.v
theories/GoRunExamples.v
theories/GoTypesExamples.v
