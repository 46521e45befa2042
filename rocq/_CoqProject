-Q theories Verif
theories/ArgsExamples.v
theories/ArgsModel.v
theories/ArgsProofs.v
theories/ArgsSpec.v
theories/Base.v
theories/BindDecode.v
theories/BindDecodeEx.v
theories/BindExamples.v
theories/BindGen.v
theories/BindGenSpec.v
theories/BindModel.v
theories/BindOrder.v
theories/BindProofs.v
theories/BindSpec.v
theories/BindStruct.v
theories/BuiltinModel.v
theories/BuiltinProofs.v
theories/BuiltinSpec.v
theories/CliExamples.v
theories/CliModel.v
theories/CliProofs.v
theories/CliSpec.v
theories/ClientExamples.v
theories/ClientModel.v
theories/ClientProofs.v
theories/ClientSpec.v
theories/CodecModel.v
theories/CodecProofs.v
theories/CodecSpec.v
theories/CodecTime.v
theories/ContentExamples.v
theories/ContentProofs.v
theories/ContentSpec.v
theories/Decimal.v
theories/DecodeModel.v
theories/DecodeProofs.v
theories/DocExamples.v
theories/DocModel.v
theories/DocProofs.v
theories/DocSpec.v
theories/EqualModel.v
theories/EqualProofs.v
theories/EqualSpec.v
theories/FilesExamples.v
theories/FilesModel.v
theories/FilesProofs.v
theories/FilesSpec.v
theories/FuncCalls.v
theories/FuncExamples.v
theories/FuncModel.v
theories/FuncProofs.v
theories/FuncSpec.v
theories/GenModel.v
theories/GenProofs.v
theories/GenSpec.v
theories/GraphElem.v
theories/GraphElemProofs.v
theories/GraphElemSpec.v
theories/GraphModel.v
theories/GraphProofs.v
theories/GraphSpec.v
theories/IndentEqual.v
theories/IndentExamples.v
theories/IndentProofs.v
theories/IndentRest.v
theories/LackAll.v
theories/LackExamples.v
theories/LackModel.v
theories/LackProofs.v
theories/LackSpec.v
theories/LackTold.v
theories/LinkExamples.v
theories/LinkModel.v
theories/LinkProofs.v
theories/LinkSpec.v
theories/MainExamples.v
theories/MainModel.v
theories/MainProofs.v
theories/MainSpec.v
theories/MarshalModel.v
theories/MarshalProofs.v
theories/MarshalProofs2.v
theories/MarshalSpec.v
theories/MethodExamples.v
theories/MethodFile.v
theories/MethodModel.v
theories/MethodProofs.v
theories/MethodSpec.v
theories/MissExamples.v
theories/MissModel.v
theories/MissProofs.v
theories/MissSelf.v
theories/MissSpec.v
theories/MissText.v
theories/NamesExamples.v
theories/NamesModel.v
theories/NamesProofs.v
theories/NamesSpec.v
theories/NormAgain.v
theories/NormAgainExamples.v
theories/NormAmong.v
theories/NormAnon.v
theories/NormAnonExamples.v
theories/NormAnonProofs.v
theories/NormAnonRoots.v
theories/NormAnonSpec.v
theories/NormAttr.v
theories/NormBuild.v
theories/NormCopyProofs.v
theories/NormCycle.v
theories/NormDefaults.v
theories/NormDocs.v
theories/NormExamples.v
theories/NormExpand.v
theories/NormFixed.v
theories/NormFlatten.v
theories/NormHoist.v
theories/NormHoistMem.v
theories/NormHoistSpec.v
theories/NormHoistTop.v
theories/NormIndex.v
theories/NormKeep.v
theories/NormMem.v
theories/NormModel.v
theories/NormOps.v
theories/NormPass.v
theories/NormPath.v
theories/NormPlainDocs.v
theories/NormRecursive.v
theories/NormRefAttr.v
theories/NormRefExamples.v
theories/NormRefSpec.v
theories/NormRefs.v
theories/NormReread.v
theories/NormRereadNormal.v
theories/NormSpec.v
theories/NormStart.v
theories/NormUnpack.v
theories/NormUnpackAll.v
theories/OopsExamples.v
theories/OopsModel.v
theories/OopsProofs.v
theories/OopsSpec.v
theories/OptExamples.v
theories/OptModel.v
theories/OptProofs.v
theories/OptSpec.v
theories/OrderExamples.v
theories/ParseModel.v
theories/ParseProofs.v
theories/ParseSpec.v
theories/PartExamples.v
theories/PartFrame.v
theories/PartModel.v
theories/PartProofs.v
theories/PartSpec.v
theories/PipeExamples.v
theories/PipeMissing.v
theories/PipeModel.v
theories/PipeParse.v
theories/PipeProofs.v
theories/PipeSpec.v
theories/PipeWhole.v
theories/PipeWholeExamples.v
theories/PipeWholeSpec.v
theories/PropsAgain.v
theories/PropsAnon.v
theories/PropsArgs.v
theories/PropsBind.v
theories/PropsBuiltin.v
theories/PropsCli.v
theories/PropsClient.v
theories/PropsCode.v
theories/PropsCodec.v
theories/PropsContent.v
theories/PropsDoc.v
theories/PropsEqual.v
theories/PropsExpand.v
theories/PropsFiles.v
theories/PropsFlat.v
theories/PropsFunc.v
theories/PropsGen.v
theories/PropsGraph.v
theories/PropsGraphElem.v
theories/PropsIndent.v
theories/PropsLack.v
theories/PropsLink.v
theories/PropsMain.v
theories/PropsMarshal.v
theories/PropsMethod.v
theories/PropsMiss.v
theories/PropsNames.v
theories/PropsNorm.v
theories/PropsOops.v
theories/PropsOpt.v
theories/PropsOrder.v
theories/PropsParse.v
theories/PropsPart.v
theories/PropsPipe.v
theories/PropsPipeWhole.v
theories/PropsRefs.v
theories/PropsRefuse.v
theories/PropsScope.v
theories/PropsSg.v
theories/PropsShape.v
theories/PropsShow.v
theories/PropsSlice.v
theories/PropsSoap.v
theories/PropsText.v
theories/PropsTranscode.v
theories/PropsTree.v
theories/PropsTypes.v
theories/PropsUnm.v
theories/PropsValue.v
theories/PropsWhere.v
theories/PropsWhole.v
theories/PropsWsdl.v
theories/PropsXsd.v
theories/PropsXsdparse.v
theories/PropsZero.v
theories/RefuseProofs.v
theories/ScopeHeap.v
theories/ScopeHeapProofs.v
theories/ScopeModel.v
theories/ScopeProofs.v
theories/ScopeSpec.v
theories/SgClosed.v
theories/SgDecl.v
theories/SgExamples.v
theories/SgExpand.v
theories/SgExpandExamples.v
theories/SgExpandFields.v
theories/SgExpandSpec.v
theories/SgFieldNames.v
theories/SgFlat.v
theories/SgFlatExamples.v
theories/SgFlatSpec.v
theories/SgFlatten.v
theories/SgGen.v
theories/SgGenClosed.v
theories/SgGenCode.v
theories/SgGenExamples.v
theories/SgGenName.v
theories/SgGenProofs.v
theories/SgGenReach.v
theories/SgGenSpec.v
theories/SgModel.v
theories/SgNames.v
theories/SgOrder.v
theories/SgOrderCode.v
theories/SgOrderGen.v
theories/SgOrderReach.v
theories/SgOrderSpec.v
theories/SgProofs.v
theories/SgShape.v
theories/SgShapeSpec.v
theories/SgStruct.v
theories/SgTags.v
theories/ShapeExamples.v
theories/ShowExamples.v
theories/ShowModel.v
theories/ShowProofs.v
theories/ShowSpec.v
theories/SliceExamples.v
theories/SliceModel.v
theories/SliceProofs.v
theories/SliceSpec.v
theories/SoapExamples.v
theories/SoapModel.v
theories/SoapProofs.v
theories/SoapShare.v
theories/SoapSpec.v
theories/SortLib.v
theories/StdSchema.v
theories/TextExamples.v
theories/TextFields.v
theories/TextModel.v
theories/TextProofs.v
theories/TextSpec.v
theories/TranscodeModel.v
theories/TranscodeProofs.v
theories/TranscodeSpec.v
theories/TreeModel.v
theories/TreeProofs.v
theories/TreeSpec.v
theories/TypesExamples.v
theories/TypesFinal.v
theories/TypesMixed.v
theories/TypesModel.v
theories/TypesOrder.v
theories/TypesParse.v
theories/TypesProofs.v
theories/TypesRead.v
theories/TypesSpec.v
theories/UnmExamples.v
theories/UnmModel.v
theories/UnmProofs.v
theories/UnmSpec.v
theories/UnmText.v
theories/UnmWhole.v
theories/Utf8.v
theories/ValueText.v
theories/WhereExamples.v
theories/WhereModel.v
theories/WhereProofs.v
theories/WhereSpec.v
theories/WholeBind.v
theories/WholeExamples.v
theories/WholeProofs.v
theories/WholeSpec.v
theories/WsdlExamples.v
theories/WsdlGen.v
theories/WsdlModel.v
theories/WsdlProofs.v
theories/WsdlSpec.v
theories/XsdModel.v
theories/XsdProofs.v
theories/XsdSimple.v
theories/XsdSpec.v
theories/XsdparseAgain.v
theories/XsdparseAgainExamples.v
theories/XsdparseExamples.v
theories/XsdparseModel.v
theories/XsdparseProofs.v
theories/XsdparseSpec.v
theories/ZeroModel.v
theories/ZeroProofs.v
