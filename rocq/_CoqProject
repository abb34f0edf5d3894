-Q theories Verif
theories/Base.v
theories/Bytes.v
theories/Keccak.v
theories/Sha256.v
theories/HashAddress.v
theories/Wots.v
theories/XmssCommon.v
theories/AlgsXmss.v
theories/AlgsXmssFast.v
theories/Descriptor.v
theories/SpecXmss.v
theories/SpecApi.v
theories/SpecForge.v
theories/XmssObj.v
theories/XmssRefine.v
theories/WotsProofs.v
theories/TreeProofs.v
theories/KeccakLemmas.v
theories/BasicProofs.v
theories/BdsSched.v
theories/BdsProofs.v
theories/BdsSetup.v
theories/FastProofs.v
theories/DescrProofs.v
theories/VerifyProofs.v
theories/PropObj.v
theories/PropKeys.v
theories/PropDescr.v
theories/PropWots.v
theories/PropVerify.v
theories/PropForge.v
theories/SpecKeccak.v
theories/KeccakBits.v
theories/PropShake.v
theories/SpecDomain.v
theories/PropDomain.v
theories/Pool.v
theories/SpecPool.v
theories/PoolInv.v
theories/PropPool.v
theories/PropPool2.v
theories/PropCodec.v
theories/PoolExamples.v
theories/Wordlist.v
theories/WordlistProofs.v
theories/Misc.v
theories/SpecMisc.v
theories/PropMisc.v
theories/JsWrapper.v
theories/PropJs.v
theories/PqWrapper.v
theories/PropPq.v
theories/PropCtor.v
theories/RsBase.v
theories/RsKeccak.v
theories/RsShake.v
theories/RsHash.v
theories/RsWots.v
theories/RsAlgs.v
theories/RsFast.v
theories/PropRsShake.v
theories/RsSim.v
theories/RsSimWots.v
theories/SpecRust.v
theories/RsObj.v
theories/RsSimTree.v
theories/RsSimAlgs.v
theories/RsSimFast.v
theories/RsObjProofs.v
theories/RsBasicProofs.v
theories/RsVerifyProofs.v
theories/SpecWinternitz.v
theories/PropWinternitz.v
theories/PropWinternitz2.v
theories/SpecBasic.v
theories/PropBasicHist.v
theories/PropRsExtra.v
theories/PropRust.v
theories/PropRust2.v
theories/PropRust3.v
theories/PropRust4.v
theories/RsMisc.v
theories/SpecRsMisc.v
theories/PropRsMisc.v
theories/PropRsSeeds.v
theories/RsPool.v
theories/SpecRsPool.v
theories/PropRsPool.v
theories/RsPq.v
theories/PropRsPq.v
theories/PoolLife.v
theories/PropPoolLife.v
theories/PropBind.v
theories/JsSeed.v
theories/PropJsSeed.v
theories/SpecCopy.v
theories/FastCopy.v
theories/CopyProofs.v
theories/PropCopy.v
theories/PropMove.v
theories/SpecAlloc.v
theories/FastAlloc.v
theories/PropAlloc.v
theories/Session.v
theories/PropSession.v
theories/SpecCost.v
theories/Cost.v
theories/CostProofs.v
theories/CostProofs2.v
theories/PropCost.v
theories/CasesXmss.v
theories/CasesMisc.v
theories/SpecThreads.v
theories/Threads.v
theories/PropThreads.v
theories/Cost2.v
theories/PropCost2.v
theories/ByteOrder.v
theories/PropByteOrder.v
theories/FpParams.v
theories/SpecFp.v
theories/PropFp.v
theories/Stack.v
theories/StackProofs.v
theories/PropStack.v
theories/PyErrors.v
theories/SpecErrors.v
theories/PropErrors.v
theories/PropJsBasic.v
theories/SpecTweak.v
theories/Trace.v
theories/TraceProofs.v
theories/TraceProofs2.v
theories/TraceProofs3.v
theories/TraceErase.v
theories/PropTweak.v
theories/SpecPlace.v
theories/VerifyTrace.v
theories/TraceVerify.v
theories/PropForge2.v
theories/TraceTally.v
theories/SpecPrf.v
theories/TracePrf.v
theories/PropPrf.v
theories/SpecShape.v
theories/TraceShape.v
theories/PropShape.v
theories/SpecRestart.v
theories/PropRestart.v
theories/SpecReuse.v
theories/PropReuse.v
theories/FastAssign.v
theories/PropAssign.v
theories/MemText.v
theories/PropMem.v
theories/SpecCommit.v
theories/PropCommit.v
theories/SpecRfc.v
theories/PropRfc.v
theories/PropRsRfc.v
theories/BasicSession.v
theories/PropBasicSession.v
theories/SpecMove.v
theories/Migrate.v
theories/PropMigrate.v
theories/SpecW256.v
theories/PropW256.v
theories/MixSession.v
theories/PropMix.v
theories/SpecFresh.v
theories/PropFresh.v
theories/SpecTerms.v
theories/SpecTerms2.v
theories/SpecTerms3.v
theories/SpecAddr.v
theories/AddrFields.v
theories/PropAddr.v
