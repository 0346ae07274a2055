-Q theories Verif
theories/Bytes.v
theories/RustStd.v
theories/NumberSpec.v
theories/NumberProofs.v
theories/FloatSpec.v
theories/FloatProofs.v
theories/RustFmt.v
theories/FmtProofs.v
theories/Lexer.v
theories/ParserBase.v
theories/ObjTypes.v
theories/IndexSpec.v
theories/MtlTypes.v
theories/ObjModel.v
theories/MtlModel.v
theories/TokenSpec.v
theories/ObjSpec.v
theories/ObjErrorSpec.v
theories/LexerProofs.v
theories/RelProofs.v
theories/SourceProofs.v
theories/ConsumeProofs.v
theories/TotalProofs.v
theories/LayoutProofs.v
theories/RunProofs.v
theories/ObjAccept.v
theories/ObjElements.v
theories/ObjBody.v
theories/ObjState.v
theories/ObjFile.v
theories/TextProofs.v
theories/Locality.v
theories/ObjTop.v
theories/ObjView.v
theories/ObjMeaning.v
theories/ObjReach.v
theories/ObjUnique.v
theories/ObjExtend.v
theories/ObjFacts.v
theories/ObjMore.v
theories/ObjPlaces.v
theories/ExampleText.v
theories/ObjDebug.v
theories/ObjProps.v
theories/ObjWriteSpec.v
theories/ObjWrite.v
theories/Demo.v
theories/PropObj.v
theories/PropObj2.v
theories/MtlSpec.v
theories/MtlRun.v
theories/MtlTop.v
theories/MtlFacts.v
theories/Merge.v
theories/MtlDemo.v
theories/PropMtl.v
theories/PropLexer.v
theories/PropTotal.v
theories/NumberFacts.v
theories/PropNumber.v
theories/LineSpec.v
theories/WordProofs.v
theories/DisplayModel.v
theories/DisplaySpec.v
theories/DisplayProofs.v
theories/PropDisplay.v
theories/EqModel.v
theories/EqSpec.v
theories/EqProofs.v
theories/PropEq.v
theories/MtlWriteSpec.v
theories/MtlWrite.v
theories/PropMtl2.v
theories/ObjImageSpec.v
theories/ObjWriter.v
theories/ObjExport.v
theories/ObjImage.v
theories/ObjImageOnly.v
theories/PropObj3.v
theories/ObjMerge.v
theories/PropFiles.v
theories/ObjUnknown.v
theories/GrammarSpec.v
theories/GrammarProofs.v
theories/MtlGrammar.v
theories/GrammarCases.v
theories/PropGrammar.v
theories/OrdModel.v
theories/OrdSpec.v
theories/OrdProofs.v
theories/OrdFacts.v
theories/PropOrd.v
theories/HashModel.v
theories/PropHash.v
theories/RewriteSpec.v
theories/ObjRewrite.v
theories/TopLines.v
theories/MtlTopLines.v
theories/PropRewrite.v
theories/MessageSpec.v
theories/MtlMessageSpec.v
theories/ObjMessages.v
theories/MtlMessages.v
theories/PropErrors.v
theories/SameSpec.v
theories/RespellSpec.v
theories/ObjSimulate.v
theories/Respell.v
theories/MtlRespellSpec.v
theories/MtlRespell.v
theories/PropRespell.v
theories/AgainSpec.v
theories/Again.v
theories/MtlAgain.v
theories/PropAgain.v
theories/FmtSpec.v
theories/FmtBest.v
theories/FmtShort.v
theories/FmtText.v
theories/PropFmt.v
theories/MtlRewriteSpec.v
theories/MtlRewrite.v
theories/PropMtl3.v
theories/PlaceSpec.v
theories/Places.v
theories/Lines.v
theories/MtlLineSpec.v
theories/MtlLines.v
theories/ObjCut.v
theories/Viable.v
theories/CutDebug.v
theories/PropLines.v
theories/MtlViable.v
theories/PropViable.v
theories/SizeSpec.v
theories/Sizes.v
theories/MtlSizes.v
theories/PropSizes.v
theories/CountSpec.v
theories/CostProofs.v
theories/ObjCost.v
theories/MtlCost.v
theories/Calls.v
theories/LogSpec.v
theories/LogProofs.v
theories/ObjLog.v
theories/MtlLog.v
theories/Logs.v
theories/PropCost.v
theories/BlankSpec.v
theories/DocMtlSpec.v
theories/DocMtl.v
theories/PropDoc.v
theories/DocObjSpec.v
theories/DocObj.v
theories/PropDocObj.v
theories/SurfaceSpec.v
theories/SurfaceProofs.v
theories/AreaSpec.v
theories/AreaProofs.v
theories/TileSpec.v
theories/TileProofs.v
theories/HullProofs.v
theories/PropSurface.v
theories/UsizeModel.v
theories/UsizeProofs.v
theories/PropUsize.v
theories/NarrowModel.v
theories/NarrowSpec.v
theories/NarrowProofs.v
theories/NarrowDebug.v
theories/NarrowMtlModel.v
theories/NarrowMtl.v
theories/NarrowLexerModel.v
theories/NarrowLexer.v
theories/NarrowMoves.v
theories/PropNarrow.v
theories/NameSpec.v
theories/NameProofs.v
theories/PropNames.v
theories/FirstWord.v
theories/PropFirst.v
theories/RustDebug.v
theories/DebugModel.v
theories/DebugSpec.v
theories/DebugText.v
theories/DebugNumber.v
theories/DebugProofs.v
theories/PropDebug.v
theories/PrettyModel.v
theories/PrettySpec.v
theories/PrettyProofs.v
theories/PrettyOnly.v
theories/PrettyText.v
theories/PropPretty.v
theories/DisplayTextSpec.v
theories/DisplayText.v
theories/PropDisplayText.v
theories/UseSpec.v
theories/UseProofs.v
theories/PropUse.v
theories/CompleteSpec.v
theories/CompleteProofs.v
theories/PropComplete.v
theories/ConformLexer.v
theories/ConformObj.v
theories/ConformTeapot.v
theories/ConformMtl.v
