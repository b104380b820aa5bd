-Q theories Verif
theories/Base.v
theories/Config.v
theories/Encoding.v
theories/MsgCommon.v
theories/MsgVersion.v
theories/MsgCapabilities.v
theories/MsgAlgorithms.v
theories/MsgDigest.v
theories/MsgCertificates.v
theories/MsgChallenge.v
theories/MsgError.v
theories/MsgMeasurements.v
theories/Transcript.v
theories/Crypto.v
theories/Responder.v
theories/Requester.v
theories/ConfigBuild.v
theories/Bufs.v
theories/BaseLemmas.v
theories/WriterLogic.v
theories/WriterSafe.v
theories/ReaderLogic.v
theories/ReaderBits.v
theories/ReaderLoops.v
theories/SpecWire.v
theories/SpecMsgs.v
theories/FlagLemmas.v
theories/GramBasic.v
theories/GramAlg.v
theories/GramDigest.v
theories/GramCert.v
theories/GramOpaque.v
theories/GramChal.v
theories/GramMeas.v
theories/PropTools.v
theories/Sample.v
theories/SampleRun.v
theories/PropTranscript.v
theories/PropVersionCaps.v
theories/PropAlg.v
theories/PropCerts.v
theories/PropChal.v
theories/PropMeas.v
theories/PropGeneric.v
theories/PropEncoding.v
theories/PropTables.v
theories/PropDer.v
theories/SpecResponder.v
theories/RspParts.v
theories/RspStep.v
theories/RspSim.v
theories/RspPanic.v
theories/PropResponder.v
theories/PropRspState.v
theories/PropRspAns.v
theories/SpecRequester.v
theories/ReqStep.v
theories/ReqMsg.v
theories/PropRequester.v
theories/SampleReq.v
theories/PropReqState.v
theories/PropExact.v
theories/NonInterf.v
theories/PropNonInterf.v
theories/SpecChecks.v
theories/SpecVerdict.v
theories/VerdictLogic.v
theories/RspVerdict.v
theories/PropVerdict.v
theories/PropReqLimits.v
theories/ReqPanic.v
theories/PropReqPanic.v
theories/SpecAgree.v
theories/Functional.v
theories/PropAgree.v
theories/PropMitm.v
theories/SpecReqVerdict.v
theories/ReqVerdict.v
theories/PropReqVerdict.v
theories/PropConstruct.v
theories/PropCanon.v
theories/PropReencode.v
theories/SpecSlots.v
theories/PropSlots.v
theories/PropNoCrypto.v
theories/CryptoApi.v
theories/PropCryptoApi.v
theories/PropDowngrade.v
theories/SpecAuth.v
theories/PropAuth.v
theories/PropFraming.v
theories/PropFresh.v
theories/PropAvail.v
theories/ConfigText.v
theories/PropConfigText.v
theories/PropVersion.v
theories/PropPadding.v
theories/PropCapDriven.v
theories/BufRoom.v
theories/PropSizing.v
theories/PropTransSize.v
theories/SpecFaults.v
theories/FaultLogic.v
theories/PropFaults.v
theories/SpecWriteFaults.v
theories/PropWriteFaults.v
theories/PropErrors.v
theories/PropSession.v
theories/PropRepeat.v
theories/PropTwoRun.v
theories/PropSummary.v
theories/SpecReport.v
theories/PropReport.v
theories/SpecCryptoUse.v
theories/PropCryptoUse.v
theories/PropNames.v
theories/PropConfigVerdict.v
theories/PropSkip.v
theories/Accessors.v
theories/PropInspect.v
theories/Word.v
theories/PropWord.v
theories/Entropy.v
theories/PropEntropy.v
theories/Loops.v
theories/PropLoops.v
theories/BuildScript.v
theories/PropBuild.v
theories/PropChain.v
theories/PropInterop.v
theories/PropSlotZero.v
theories/PropRetry.v
theories/PropSignOnce.v
theories/PropInjective.v
theories/RepoTests.v
