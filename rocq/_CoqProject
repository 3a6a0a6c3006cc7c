-Q theories Verif
theories/Base.v
theories/Bigint.v
theories/MHash.v
theories/Sha.v
theories/MPad.v
theories/MMgf.v
theories/MPkcs1.v
theories/MOaep.v
theories/MPss.v
theories/MRsa.v
theories/MGenerate.v
theories/MKey.v
theories/MApi.v
theories/MWrap.v
theories/MDer.v
theories/MEncoding.v
theories/MSerde.v
theories/MDebug.v
theories/Fermat.v
theories/NumTheory.v
theories/SpecRFC.v
theories/SpecSig.v
theories/KeyDefs.v
theories/SpecRng.v
theories/SpecKey.v
theories/SpecDer.v
theories/SpecHex.v
theories/SpecSerde.v
theories/SpecOid.v
theories/BytesLemmas.v
theories/BigintLemmas.v
theories/PPad.v
theories/PMgf.v
theories/PPkcs1.v
theories/PRsa.v
theories/POaep.v
theories/PPss.v
theories/PApi.v
theories/PSig.v
theories/PHist.v
theories/PRaw.v
theories/PEnc.v
theories/PSign.v
theories/SpecGen.v
theories/PKey.v
theories/PRecover.v
theories/PBuild.v
theories/PFloat.v
theories/PGenerate.v
theories/PPub.v
theories/PDer.v
theories/PEncoding.v
theories/PCodec.v
theories/PWrapEnc.v
theories/PDebug.v
theories/PWrap.v
theories/PSerde.v
theories/MLeak.v
theories/MLeakEnc.v
theories/MLeakKey.v
theories/MLeakExport.v
theories/PLeak.v
theories/SpecLeak.v
theories/PLeakRel.v
theories/PLeakApi.v
theories/PLeakEnc.v
theories/PLeakKey.v
theories/KeyExamples.v
theories/PropPadding.v
theories/PropRsa.v
theories/PropEnc.v
theories/PropSig.v
theories/PropKey.v
theories/PropGen.v
theories/PropEncoding.v
theories/PropDebug.v
theories/PropWrap.v
theories/PropSerde.v
theories/PropLeak.v
theories/PropLoad.v
theories/MMisc.v
theories/PMisc.v
theories/PMisc2.v
theories/PropMisc.v
theories/SpecBlind.v
theories/SpecRequests.v
theories/MBlind.v
theories/PBlind.v
theories/PRequests.v
theories/PUniform.v
theories/PUniform2.v
theories/PropRandom.v
theories/MFault.v
theories/PFault.v
theories/PropFault.v
theories/SpecWork.v
theories/PWork.v
theories/PropWork.v
theories/SpecDraws.v
theories/PDraws.v
theories/PropDraws.v
theories/PBoundary.v
theories/PropBoundary.v
theories/PExport.v
theories/PropExport.v
theories/SpecPairs.v
theories/PPairs.v
theories/PropPairs.v
theories/PErrors.v
theories/PropErrors.v
theories/MRelease.v
theories/PRelease.v
theories/PRelVerify.v
theories/PropRelease.v
theories/SpecPssParams.v
theories/MPssParams.v
theories/PPssParams.v
theories/PropPssParams.v
theories/MErrors.v
theories/PropTexts.v
theories/Vectors.v
theories/MResidue.v
theories/SpecResidue.v
theories/PResidue.v
theories/PropResidue.v
theories/MResidueSig.v
theories/PResidueSig.v
theories/PropResidueSig.v
theories/SpecLife.v
theories/PLife.v
theories/PropLife.v
theories/PAccept.v
theories/PropAccept.v
theories/SpecCount.v
theories/SpecExport.v
theories/PCount.v
theories/PropCount.v
theories/PLeakExport.v
theories/PropLeakExport.v
theories/MLeakImport.v
theories/PLeakImport.v
theories/PropLeakImport.v
theories/SpecTries.v
theories/MLeakGen.v
theories/PLeakGen.v
theories/PropLeakGen.v
theories/SpecOracle.v
theories/POracle.v
theories/PropOracle.v
theories/SpecWeak.v
theories/PWeak.v
theories/PSplit.v
theories/PropWeak.v
theories/SpecBroadcast.v
theories/PBroadcast.v
theories/PropBroadcast.v
theories/PCross.v
theories/PropCross.v
theories/PErase.v
theories/PropErase.v
theories/SpecInventory.v
theories/PInventory.v
theories/PropInventory.v
theories/PropInventoryErr.v
theories/MLeakVerify.v
theories/PLeakVerify.v
theories/SpecHashing.v
theories/PHashing.v
theories/PropHashing.v
theories/SpecRefusal.v
theories/PRefusal.v
theories/PropRefusal.v
theories/PExportAll.v
theories/PropExportAll.v
theories/MParts.v
theories/PParts.v
theories/PropParts.v
theories/PShared.v
theories/PropShared.v
theories/MPem.v
theories/SpecPem.v
theories/PPem.v
theories/PropPem.v
theories/PropBlindSig.v
theories/PropTextLife.v
theories/PropInventoryFail.v
