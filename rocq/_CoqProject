-Q theories Verif
theories/Base.v
theories/BaseProofs.v
theories/Aead.v
theories/SpecAead.v
theories/AeadProofs.v
theories/Hkdf.v
theories/HalfConn.v
theories/SpecTls.v
theories/HkdfProofs.v
theories/HalfProofs.v
theories/HalfRun.v
theories/HalfRunProofs.v
theories/Options.v
theories/HsHandler.v
theories/Crypter.v
theories/FrameProt.v
theories/SpecHs.v
theories/HsProofs.v
theories/SpecRecord.v
theories/SpecRx.v
theories/CrypterRun.v
theories/CrypterProofs.v
theories/CrypterRunProofs.v
theories/SpecRxProofs.v
theories/CrypterLemmas.v
theories/CrypterLemmas2.v
theories/CrypterLemmas3.v
theories/Toy.v
theories/ToyProofs.v
theories/HsRun.v
theories/HsRunProofs.v
theories/AeadRun.v
theories/AeadRunProofs.v
theories/AeadRefuted.v
theories/CrypterRefuted.v
theories/AeadExamples.v
theories/HalfExamples.v
theories/PropAead.v
theories/PropHkdf.v
theories/PropHalf.v
theories/CrypterFinal.v
theories/RecordExamples.v
theories/RecordRefuted.v
theories/CrypterChannel.v
theories/PropRecord.v
theories/SpecFrame.v
theories/FrameRun.v
theories/FrameProofs.v
theories/Calm.v
theories/FrameRx.v
theories/FrameSim.v
theories/FrameLink.v
theories/FrameTrip.v
theories/FrameFinal.v
theories/FrameExamples.v
theories/FrameRefuted.v
theories/PropFrame.v
theories/Wire.v
theories/SpecWire.v
theories/WireProofs.v
theories/WireMsgs.v
theories/Util.v
theories/Context.v
theories/TicketReq.v
theories/Token.v
theories/Proxy.v
theories/SpecOptions.v
theories/HsMsgProofs.v
theories/PropMsgs.v
theories/ProxyRun.v
theories/ProxyProofs.v
theories/WireValid.v
theories/ProxyFinal.v
theories/ProxyTokens.v
theories/ProxyRefuted.v
theories/PropProxy.v
theories/Conc.v
theories/ConcAlone.v
theories/ConcRun.v
theories/ConcLinear.v
theories/ConcTag.v
theories/ConcBoth.v
theories/ConcInst.v
theories/ConcInst2.v
theories/ConcRefuted.v
theories/PropConc.v
theories/RealSha2.v
theories/RealCiphers.v
theories/RealProofs.v
theories/RealData.v
theories/RealVectors.v
theories/AeadAnyProofs.v
theories/AeadTotalProofs.v
theories/SpecProto.v
theories/WireSerial.v
theories/WireReads.v
theories/WireConform.v
theories/PropWire.v
theories/SpecProxy.v
theories/ProxyMore.v
theories/ProxyEnd.v
theories/PropProxy2.v
theories/SpecHandler.v
theories/HsHistory.v
theories/PropHandler.v
theories/FrameRef.v
theories/FrameNull.v
theories/FrameRefProofs.v
theories/FrameRefExample.v
theories/PropFrameRef.v
theories/ConcPair.v
theories/ConcPairProofs.v
theories/ConcPairExample.v
theories/SpecStream.v
theories/StreamProofs.v
theories/StreamExample.v
theories/PropStream.v
theories/ProxyConc.v
theories/SpecProxyConc.v
theories/ProxyConcProofs.v
theories/ProxyConcFinal.v
theories/ProxyConcRefuted.v
theories/PropProxyConc.v
theories/SpecSession.v
theories/SessionProofs.v
theories/SessionFinal.v
theories/PropSession.v
theories/Every.v
theories/EveryFrame.v
theories/SpecGap.v
theories/GapProofs.v
theories/EveryCases.v
theories/PropEvery.v
theories/TicketEnd.v
theories/SpecTicketEnd.v
theories/TicketEndProofs.v
theories/TicketEndCases.v
theories/PropTickets.v
theories/SpecRfc.v
theories/Rfc.v
theories/RfcCases.v
theories/PropRfc.v
theories/Log.v
theories/LogRun.v
theories/LogProofs.v
theories/SpecLog.v
theories/LogFacts.v
theories/LogExact.v
theories/LogCases.v
theories/PropLog.v
theories/ProxyLog.v
theories/SpecProxyLog.v
theories/ProxyLogProofs.v
theories/ProxyLogMore.v
theories/ProxyLogSame.v
theories/ProxyLogCases.v
theories/PropProxyLog.v
theories/SpecBuf.v
theories/BufProofs.v
theories/BufFinal.v
theories/BufCases.v
theories/PropBuf.v
theories/SpecNull.v
theories/NullProofs.v
theories/NullCases.v
theories/PropNull.v
theories/NullWrite.v
theories/PropNullWrite.v
theories/SpecCodes.v
theories/AeadCodes.v
theories/PropCodes.v
theories/Debug.v
theories/DebugRun.v
theories/DebugProofs.v
theories/DebugFinal.v
theories/DebugCases.v
theories/PropDebug.v
theories/Held.v
theories/HeldProofs.v
theories/HeldFinal.v
theories/HeldEvery.v
theories/HeldCases.v
theories/PropHeld.v
theories/CreateCodes.v
theories/PropCreate.v
theories/BuildsProofs.v
theories/BuildsAes.v
theories/BuildsFinal.v
theories/PropBuilds.v
theories/NoChacha.v
theories/NoChachaProofs.v
theories/NoChachaProxy.v
theories/PropNoChacha.v
theories/ConcRead.v
theories/ConcReadMutex.v
theories/ConcReadProofs.v
theories/ConcReadExamples.v
theories/PropConcRead.v
theories/NoMem.v
theories/NoMemProofs.v
theories/PropNoMem.v
theories/ConcMix.v
theories/ConcMixMutex.v
theories/ConcMixProofs.v
theories/ConcMixExamples.v
theories/PropConcMix.v
theories/ConcMixNonce.v
theories/SpecKeyChange.v
theories/KeyChange.v
theories/KeyTwice.v
theories/KeyThreads.v
theories/KeyCases.v
theories/PropKeyChange.v
theories/Single.v
theories/SingleProofs.v
theories/SingleTeam.v
theories/SingleCases.v
theories/SingleEvery.v
theories/PropSingle.v
theories/SpecErr.v
theories/ErrQueue.v
theories/ErrQueueSame.v
theories/ErrQueueProofs.v
theories/ErrQueueCases.v
theories/ErrQueueEvery.v
theories/PropErr.v
theories/ErrCrypt.v
theories/SpecErrCrypt.v
theories/ErrCryptProofs.v
theories/ErrCryptCases.v
theories/PropErrCrypt.v
theories/ErrFrame.v
theories/SpecErrFrame.v
theories/ErrFrameProofs.v
theories/ErrFrameCases.v
theories/PropErrFrame.v
theories/ErrCryptEvery.v
theories/ErrFrameEvery.v
