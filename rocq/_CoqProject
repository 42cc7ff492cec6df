-Q theories Verif
theories/Base.v
theories/Tactics.v
theories/CTypeModel.v
theories/DigitsSpec.v
theories/DigitsProofs.v
theories/U128Model.v
theories/U128TextModel.v
theories/U128FloatModel.v
theories/U128Spec.v
theories/FloatSpec.v
theories/FloatProofs.v
theories/U128Proofs.v
theories/U128Bits.v
theories/U128Scan.v
theories/U128Popcount.v
theories/U128Div.v
theories/U128Text.v
theories/U128Float.v
theories/U128FromFloat.v
theories/U128RoundTrip.v
theories/U128More.v
theories/U128Props.v
theories/BinPackModel.v
theories/BinPackSpec.v
theories/BinPackArray.v
theories/BinPackGuillotine.v
theories/BinPackHistory.v
theories/BinPackMaxRects.v
theories/BinPackPrune.v
theories/BinPackMaxInsert.v
theories/BinPackMaxReach.v
theories/BinPackProps.v
theories/HashModel.v
theories/HashSpec.v
theories/HashProofs.v
theories/HashSparse.v
theories/HashProps.v
theories/CodecModel.v
theories/CodecSpec.v
theories/CodecProofs.v
theories/CodecUrl.v
theories/CodecProps.v
theories/StrModel.v
theories/StrSpec.v
theories/StrProofs.v
theories/StrMore.v
theories/StrHuman.v
theories/StrZ.v
theories/StrRest.v
theories/StrProps.v
theories/UniModel.v
theories/UniSpec.v
theories/UniProofs.v
theories/UniValid.v
theories/UniConv.v
theories/UniTop.v
theories/UniText.v
theories/UniCompare.v
theories/UniFold.v
theories/UniMore.v
theories/UcdData.v
theories/UcdModel.v
theories/UcdProofs.v
theories/UcdFold.v
theories/UcdProps.v
theories/UniProps.v
theories/UniProps2.v
theories/UniProps3.v
theories/BytesModel.v
theories/BytesSpec.v
theories/BytesProofs.v
theories/BytesDyn.v
theories/BytesTop.v
theories/BytesFixed.v
theories/BytesDynTop.v
theories/BytesProps.v
theories/ConvModel.v
theories/ConvSpec.v
theories/ConvScan.v
theories/ConvPrint.v
theories/ConvBool.v
theories/ConvRound.v
theories/ConvWidth.v
theories/ConvProps.v
theories/AllocModel.v
theories/AllocSpec.v
theories/AllocProofs.v
theories/AllocClient.v
theories/AllocLifo.v
theories/AllocMono.v
theories/AllocProps.v
theories/IdModel.v
theories/IdProofs.v
theories/IdGen.v
theories/IdIter.v
theories/IdProps.v
theories/SvModel.v
theories/SvSpec.v
theories/SvCells.v
theories/SvProofs.v
theories/SvInsert.v
theories/SvAssign.v
theories/SvWhole.v
theories/SvHist.v
theories/SvProps.v
theories/Fp.v
theories/FpProofs.v
theories/DblModel.v
theories/DblSpec.v
theories/DblScan.v
theories/DblLex.v
theories/DblError.v
theories/DblValue.v
theories/DblTotal.v
theories/DblProps.v
theories/JsonModel.v
theories/JsonSpec.v
theories/JsonString.v
theories/JsonLex.v
theories/JsonTok.v
theories/JsonSkip.v
theories/JsonCopy.v
theories/JsonDom.v
theories/JsonBuild.v
theories/JsonTotal.v
theories/JsonStream.v
theories/JsonProps.v
theories/JxModel.v
theories/JxSame.v
theories/JxBuild.v
theories/JxStream.v
theories/JxSpec.v
theories/JxTok.v
theories/JxConcat.v
theories/JxTotal.v
theories/JxProps.v
theories/JqModel.v
theories/JqSpec.v
theories/JqConv.v
theories/JqPointer.v
theories/JqResolve.v
theories/JqProps.v
theories/CliModel.v
theories/CliSpec.v
theories/CliProofs.v
theories/CliCounts.v
theories/CliProps.v
theories/XmlModel.v
theories/XmlSpec.v
theories/XmlText.v
theories/XmlLex.v
theories/XmlTokens.v
theories/XmlInv.v
theories/XmlSafe.v
theories/XmlProlog.v
theories/XmlSpaces.v
theories/XmlProps.v
theories/AvModel.v
theories/AvSpec.v
theories/AvProofs.v
theories/AvProps.v
theories/UtModel.v
theories/UtSpec.v
theories/UtProps.v
theories/UtProps2.v
theories/UtFloatModel.v
theories/UtFloatProps.v
theories/PgModel.v
theories/PgSpec.v
theories/PgProofs.v
theories/PgArea.v
theories/PgFloat.v
theories/PgProps.v
theories/BzModel.v
theories/BzSpec.v
theories/BzProofs.v
theories/BzFloat.v
theories/BzProps.v
theories/RpModel.v
theories/RpProps.v
theories/AsModel.v
theories/AsSpec.v
theories/AsProofs.v
theories/AsSteps.v
theories/AsWorker.v
theories/AsMain.v
theories/AsCalls.v
theories/AsProgress.v
theories/AsRing.v
theories/AsQuiet.v
theories/AsLegal.v
theories/AsHandle.v
theories/AsProps.v
theories/PrModel.v
theories/PrSpec.v
theories/PrProofs.v
theories/PrParse.v
theories/PrWalk.v
theories/PrModes.v
theories/PrSafe.v
theories/PrProps.v
theories/ClModel.v
theories/ClSpec.v
theories/ClProofs.v
theories/ClFind.v
theories/ClMark.v
theories/ClArcs.v
theories/ClEmit.v
theories/ClClip.v
theories/ClProps.v
theories/PdModel.v
theories/PdSpec.v
theories/PdText.v
theories/PdMag.v
theories/PdInt.v
theories/PdLoop.v
theories/PdNum.v
theories/PdFinite.v
theories/PdValue.v
theories/PdProps.v
theories/AwModel.v
theories/AwSpec.v
theories/AwQueue.v
theories/AwReach.v
theories/AwAll.v
theories/AwMulti.v
theories/AwSys.v
theories/AwDist.v
theories/AwLive.v
theories/AwRuns.v
theories/AwProps.v
theories/FiModel.v
theories/FiSpec.v
theories/FiRead.v
theories/FiText.v
theories/FiDir.v
theories/FiWrite.v
theories/FiRename.v
theories/FiProps.v
theories/FoModel.v
theories/FoProofs.v
theories/FoProps.v
theories/MgModel.v
theories/MgSpec.v
theories/MgWord.v
theories/MgText.v
theories/MgLex.v
theories/MgMerge.v
theories/MgWalk.v
theories/MgRun.v
theories/MgZero.v
theories/MgProps.v
theories/UgModel.v
theories/UgSpec.v
theories/UgLists.v
theories/UgOne.v
theories/UgTriv.v
theories/UgTab.v
theories/UgType.v
theories/UgLook.v
theories/UgRuns.v
theories/UgGen.v
theories/UgEmit.v
theories/UgGet.v
theories/UgFull.v
theories/UgMore.v
theories/UgProps.v
theories/GbModel.v
theories/GbSpec.v
theories/GbRun.v
theories/GbLook.v
theories/GbProps.v
