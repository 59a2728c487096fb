-Q theories Verif

theories/Base.v
theories/Utf8Model.v
theories/Utf8Proofs.v
theories/NumberModel.v
theories/SpecNumber.v
theories/NumberProofs.v
theories/SpecJson.v
theories/WriterModel.v
theories/SpecWriter.v
theories/Utf8Prefix.v
theories/WriterProofs.v
theories/WriterDocProofs.v
theories/WriterStringProofs.v
theories/WriterSession.v
theories/WriterRun.v
theories/WriterSafe.v
theories/WriterMore.v
theories/WriterFinal.v
theories/PropsWriter.v
theories/SourceModel.v
theories/SourceProofs.v
theories/ReaderModel.v
theories/ReaderScan.v
theories/ReaderLex.v
theories/ReaderLexStr.v
theories/ReaderMid.v
theories/ReaderAgree.v
theories/ReaderSess.v
theories/ReaderGrammar.v
theories/ReaderSafe.v
theories/SpecCursor.v
theories/ReaderRepr.v
theories/ReaderForward.v
theories/ReaderSkip.v
theories/ReaderSeek.v
theories/ReaderWalk.v
theories/ReaderErase.v
theories/ReaderOut.v
theories/SpecRead.v
theories/ReaderCursor.v
theories/GrammarFacts.v
theories/ReaderBack.v
theories/ReaderErrs.v
theories/ReaderFinal.v
theories/PropsReader.v
theories/ReaderFinal2.v
theories/PropsReader2.v
theories/SpecSessions.v
theories/ReaderRelax.v
theories/ReaderPeek.v
theories/ReaderWays.v
theories/ReaderWays2.v
theories/ReaderFinal3.v
theories/PropsReader3.v
theories/SpecText.v
theories/ReaderText.v
theories/ReaderFinal4.v
theories/PropsReader4.v
theories/SpecErrors.v
theories/ReaderKinds.v
theories/ReaderKinds2.v
theories/ReaderKinds3.v
theories/ReaderKinds4.v
theories/ReaderKinds5.v
theories/ReaderKinds6.v
theories/SpecStrip.v
theories/StripProofs.v
theories/ReaderFinal5.v
theories/PropsReader5.v
theories/ReaderFinal6.v
theories/PropsReader6.v
theories/TransferModel.v
theories/SpecTransfer.v
theories/TransferProofs.v
theories/TransferWriter.v
theories/TransferFinal.v
theories/PropsTransfer.v
theories/ClientModel.v
theories/DeModel.v
theories/SpecDe.v
theories/SimpleModel.v
theories/SpecSimple.v
theories/ClientErrors.v
theories/DeErrors.v
theories/SimpleErrors.v
theories/SimpleWp.v
theories/SimpleRun.v
theories/SimpleRun2.v
theories/SimpleMulti.v
theories/SimpleMulti2.v
theories/DeRun.v
theories/DeRun2.v
theories/SimpleRun3.v
theories/SimpleRun4.v
theories/SimpleFinal.v
theories/PropsSimple.v
theories/WClientModel.v
theories/SerModel.v
theories/SpecSer.v
theories/SerRun.v
theories/SerFinal.v
theories/PropsSer.v
theories/SimpleWriterModel.v
theories/SpecSimpleWriter.v
theories/SimpleWriterErrors.v
theories/SimpleWriterRun.v
theories/SimpleWriterFinal.v
theories/PropsSimpleWriter.v
theories/ReaderFits.v
theories/DeSafe.v
theories/DeLimit.v
theories/DeFinal.v
theories/PropsDe.v
theories/SpecTypes.v
theories/RoundTrip.v
theories/RoundTrip2.v
theories/SerdeFinal.v
theories/PropsSerde.v
theories/SpecCost.v
theories/CostProofs.v
theories/CostReader.v
theories/CostFinal.v
theories/PropsCost.v
theories/SpecPositions.v
theories/PosReader.v
theories/PosFinal.v
theories/PropsPositions.v
theories/SpecLook.v
theories/LookReader.v
theories/LookFuns.v
theories/LookCalls.v
theories/LookSource.v
theories/LookSession.v
theories/LookFinal.v
theories/PropsLook.v
theories/SpecMemory.v
theories/MemSource.v
theories/MemFuns.v
theories/MemCalls.v
theories/MemFinal.v
theories/PropsMemory.v
theories/SpecBuffer.v
theories/BufferProofs.v
theories/BufferFinal.v
theories/PropsBuffer.v
theories/DebugModel.v
theories/SpecDebug.v
theories/DebugProofs.v
theories/DebugFinal.v
theories/PropsDebug.v
theories/DisplayModel.v
theories/SpecDisplay.v
theories/DisplayProofs.v
theories/DisplayFinal.v
theories/PropsDisplay.v
theories/IntegersModel.v
theories/SpecIntegers.v
theories/IntegersFinal.v
theories/PropsIntegers.v
theories/SpecReformat.v
theories/TransferBack.v
theories/TransferUnread.v
theories/TransferArb.v
theories/ReformatFinal.v
theories/PropsReformat.v
theories/ReaderUsage.v
theories/SpecUsage.v
theories/UsageRun.v
theories/UsageStep.v
theories/UsageFinal.v
theories/PropsUsage.v
theories/ClientUsage.v
theories/SpecOrderly.v
theories/DeOrderly.v
theories/SimpleOrderly.v
theories/OrderlyFinal.v
theories/PropsOrderly.v
theories/SpecOrderlyWriter.v
theories/OrderlyWriterRun.v
theories/OrderlyWriterFinal.v
theories/PropsOrderlyWriter.v
theories/SpecCopy.v
theories/TransferUsage.v
theories/CopyUsageFinal.v
theories/PropsCopyUsage.v
theories/SpecSimpleTrip.v
theories/SimpleTripFinal.v
theories/PropsSimpleTrip.v
theories/SeveralFinal.v
theories/PropsSeveral.v
theories/TestsReader.v
theories/TestsWriter.v
theories/TestsMore.v
theories/TestsSer.v
theories/TestsDe.v
theories/DeliveryFinal.v
theories/PropsDelivery.v
theories/SpecPrograms.v
theories/ProgramsFinal.v
theories/PropsPrograms.v
theories/SpecSinks.v
theories/SinkFail.v
theories/SinksFinal.v
theories/PropsSinks.v
theories/ErrorTextModel.v
theories/ErrorTextFinal.v
theories/PropsErrorTexts.v
theories/SimpleRounds.v
theories/DeRounds.v
theories/AcceptFinal.v
theories/PropsAccept.v
