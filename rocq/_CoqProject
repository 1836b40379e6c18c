-Q theories Verif

theories/Base.v
theories/PyNum.v
theories/Conversion.v
theories/Signal.v
theories/Bitstruct.v
theories/Formats.v
theories/Message.v
theories/LayoutSpec.v
theories/BitsLemmas.v
theories/DictLemmas.v
theories/FloatBits.v
theories/GenItems.v
theories/NodeProofs.v
theories/CheckSignal.v
theories/TreeProofs.v
theories/MsgProofs.v
theories/CheckComplete.v
theories/CodecSpec.v
theories/Construct.v
theories/CodecThms.v
theories/FloatRound.v
theories/RoundTrip.v
theories/MsgThms.v
theories/Strict.v
theories/Examples.v
theories/Prop_Codec.v
theories/Prop_Order.v
theories/FloatReal.v
theories/ConvReal.v
theories/Prop_Conv.v
theories/Prop_Nearest.v
theories/Container.v
theories/Prop_Container.v
theories/Database.v
theories/Prop_Database.v
theories/Did.v
theories/Prop_Diag.v
theories/J1939.v
theories/Prop_J1939.v
theories/Autosar.v
theories/Prop_E2E.v
theories/Prop_SecOC.v
theories/Tester.v
theories/Prop_Expect.v
theories/Prop_Tester.v
theories/Prop_Invert.v
theories/Prop_Initial.v
theories/CSource.v
theories/CSegments.v
theories/CProofs.v
theories/CLevels.v
theories/Prop_CSource.v
theories/CNames.v
theories/Prop_CNames.v
theories/Regex.v
theories/RegexLemmas.v
theories/Logreader.v
theories/LogSpec.v
theories/LogProofs.v
theories/LogPcan.v
theories/Prop_Log.v
theories/Prop_Sticky.v
theories/Cache.v
theories/Prop_Cache.v
theories/Prune.v
theories/Prop_Prune.v
theories/DecText.v
theories/DbcNames.v
theories/Prop_DbcNames.v
theories/DbcToken.v
theories/DbcLex.v
theories/Prop_DbcText.v
theories/DbcStmt.v
theories/DbcPieces.v
theories/DbcParse.v
theories/DbcGrammar.v
theories/DbcDump.v
theories/DbcLoad.v
theories/DbcTables.v
theories/DbcFit.v
theories/DbcWrite.v
theories/DbcRead.v
theories/DbcView.v
theories/DbcCore.v
theories/DbcSame.v
theories/DbcShort.v
theories/DbcGood.v
theories/DbcGoodFit.v
theories/DbcGoodRead.v
theories/Prop_Dbc.v
theories/Xml.v
theories/XmlProofs.v
theories/Kcd.v
theories/KcdProofs.v
theories/Prop_Kcd.v
theories/Draw.v
theories/DrawProofs.v
theories/Prop_Draw.v
theories/SymToken.v
theories/SymStmt.v
theories/Sym.v
theories/SymRows.v
theories/SymProofs.v
theories/SymMessages.v
theories/SymFile.v
theories/Prop_Sym.v
theories/Prop_Strict.v
theories/CFloat.v
theories/Prop_CFloat.v
theories/DecodeErr.v
theories/Prop_DecodeErr.v
theories/DecodeCmd.v
theories/Prop_DecodeCmd.v
theories/Monitor.v
theories/Prop_Monitor.v
theories/Cdd.v
theories/Prop_Cdd.v
theories/Arxml.v
theories/ArxmlLoad.v
theories/Prop_Arxml.v
theories/Prop_ArxmlNum.v
theories/ArxmlReach.v
theories/Prop_ArxmlPdu.v
theories/Prop_ArxmlMsg.v
theories/Prop_ArxmlScale.v
theories/Prop_ArxmlLinks.v
theories/Prop_ArxmlSafety.v
theories/Prop_ArxmlSelector.v
theories/EcuExtract.v
theories/Prop_EcuExtract.v
theories/CNode.v
theories/Prop_CNode.v
theories/Alike.v
theories/FileCodec.v
theories/Prop_FileCodec.v
theories/TreeDraw.v
theories/Prop_TreeDraw.v
theories/ListCmd.v
theories/ListRead.v
theories/ListBlock.v
theories/Prop_ListCmd.v
theories/DumpCmd.v
theories/DumpText.v
theories/Prop_DumpCmd.v
theories/Plot.v
theories/Prop_Plot.v
theories/PlotRead.v
theories/Prop_PlotRead.v
theories/PlotTimes.v
theories/Prop_PlotTimes.v
theories/Similar.v
theories/Prop_Similar.v
theories/CFloat32.v
theories/FloatReal32.v
theories/Prop_CFloat32.v
