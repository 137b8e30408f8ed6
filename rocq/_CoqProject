-Q theories Verif
theories/Base.v
theories/BaseFacts.v
theories/RpProtoModel.v
theories/RpProtoSpec.v
theories/RpProtoProofs.v
theories/PropsRpProto.v
theories/TlmModel.v
theories/RpMemModel.v
theories/RpMemSpec.v
theories/RpMemProofs.v
theories/PropsRpMem.v
theories/RpIoModel.v
theories/RpIoSpec.v
theories/RpIoProofs.v
theories/PropsRpIo.v
theories/RpSlotsModel.v
theories/RpSlotsSpec.v
theories/RpSlotsProofs.v
theories/PropsRpSlots.v
theories/RpWiresModel.v
theories/RpWiresSpec.v
theories/RpWiresProofs.v
theories/PropsRpWires.v
theories/RpTimeModel.v
theories/RpTimeProofs.v
theories/PropsRpTime.v
theories/TlmSpec.v
theories/TlmFacts.v
theories/AlignerModel.v
theories/AlignerSpec.v
theories/AlignerProofs.v
theories/PropsAligner.v
theories/SplitterModel.v
theories/SplitterSpec.v
theories/SplitterProofs.v
theories/PropsSplitter.v
theories/WrapModel.v
theories/WrapSpec.v
theories/WrapProofs.v
theories/PropsWrap.v
theories/ExmonModel.v
theories/ExmonSpec.v
theories/ExmonProofs.v
theories/PropsExmon.v
theories/CrcModel.v
theories/CrcSpec.v
theories/CrcProofs.v
theories/PropsCrc.v
theories/IconnectModel.v
theories/IconnectSpec.v
theories/IconnectProofs.v
theories/PropsIconnect.v
theories/RegapiModel.v
theories/RegapiSpec.v
theories/RegapiProofs.v
theories/PropsRegapi.v
theories/GenattrModel.v
theories/PropsGenattr.v
theories/TxnIdsModel.v
theories/TxnIdsProofs.v
theories/PropsTxnIds.v
theories/CachelineModel.v
theories/CachelineSpec.v
theories/CachelineProofs.v
theories/PropsCacheline.v
theories/CdmaModel.v
theories/CdmaSpec.v
theories/CdmaProofs.v
theories/PropsCdma.v
theories/AxiSpec.v
theories/Tlm2AxiSpec.v
theories/Tlm2AxiModel.v
theories/Tlm2AxiProofs.v
theories/Tlm2AxiReads.v
theories/PropsTlm2Axi.v
theories/Axi2TlmModel.v
theories/Axi2TlmProofs.v
theories/Axi2TlmSpec.v
theories/Axi2TlmReads.v
theories/Axi2TlmSched.v
theories/Axi2TlmSchedProofs.v
theories/Axi2TlmBridge.v
theories/PropsAxi2Tlm.v
theories/PropsAxi2TlmSched.v
theories/AceSpec.v
theories/AceModel.v
theories/AceFacts.v
theories/AceOrder.v
theories/AceCoherence.v
theories/AceCohStep.v
theories/AceData.v
theories/AceDataStep.v
theories/AceServed.v
theories/AceRun.v
theories/AceFifo.v
theories/AcePos.v
theories/PropsAce.v
theories/PhyModel.v
theories/PhyProofs.v
theories/PropsPhy.v
theories/AxisModel.v
theories/AxisProofs.v
theories/AxisSpec.v
theories/PropsAxis.v
theories/WbModel.v
theories/LeFacts.v
theories/WbProofs.v
theories/PropsWb.v
theories/NativeModel.v
theories/PropsNative.v
theories/ApbModel.v
theories/PropsApb.v
theories/AxiLiteModel.v
theories/AxiLiteProofs.v
theories/PropsAxiLite.v
theories/TlpModel.v
theories/TlpSpec.v
theories/TlpProofs.v
theories/PropsTlp.v
theories/CxsModel.v
theories/CxsSpec.v
theories/CxsProofs.v
theories/PropsCxs.v
theories/CcixModel.v
theories/CcixSpec.v
theories/CcixProofs.v
theories/CcixProofs2.v
theories/PropsCcix.v
theories/ChiModel.v
theories/ChiRun.v
theories/ChiFacts.v
theories/ChiCoh.v
theories/ChiCohStep.v
theories/ChiCohHome.v
theories/ChiServed.v
theories/ChiSpec.v
theories/ChiSnp.v
theories/ChiSeq.v
theories/PropsChi.v
theories/McdmaModel.v
theories/McdmaSpec.v
theories/McdmaProofs.v
theories/McdmaTx.v
theories/McdmaRx.v
theories/McdmaIrq.v
theories/McdmaStart.v
theories/PropsMcdma.v
theories/AxiChkModel.v
theories/AxiChkSpec.v
theories/AxiChkRead.v
theories/AxiChkLanes.v
theories/AxiChkWrite.v
theories/AxiChkHs.v
theories/AxiChkMon.v
theories/PropsAxiChk.v
theories/QdmaModel.v
theories/QdmaSpec.v
theories/QdmaBits.v
theories/QdmaDefs.v
theories/QdmaProofs.v
theories/QdmaRun.v
theories/QdmaLive.v
theories/QdmaRing.v
theories/QdmaCtx.v
theories/QdmaRegs.v
theories/PropsQdma.v
theories/TgModel.v
theories/TgSpec.v
theories/TgProofs.v
theories/PropsTg.v
theories/ChiFlitModel.v
theories/ChiFlitSpec.v
theories/ChiFlitProofs.v
theories/PropsChiFlit.v
theories/ChiLinkModel.v
theories/ChiLinkSpec.v
theories/ChiLinkProofs.v
theories/PropsChiLink.v
theories/LiteChkModel.v
theories/LiteChkSpec.v
theories/LiteChkProofs.v
theories/PropsLiteChk.v
theories/MrmacModel.v
theories/MrmacSpec.v
theories/MrmacProofs.v
theories/PropsMrmac.v
theories/SnModel.v
theories/SnSpec.v
theories/SnProofs.v
theories/PropsSn.v
theories/SnProofs2.v
theories/AtomModel.v
theories/AtomSpec.v
theories/AtomProofs.v
theories/PropsAtom.v
theories/ChiExModel.v
theories/ChiExSpec.v
theories/ChiExProofs.v
theories/PropsChiEx.v
theories/CcixLinkModel.v
theories/CcixLinkSpec.v
theories/CcixLinkProofs.v
theories/PropsCcixLink.v
theories/CcixHomeModel.v
theories/CcixHomeSpec.v
theories/CcixHomeProofs.v
theories/PropsCcixHome.v
theories/AceDvmModel.v
theories/AceDvmSpec.v
theories/AceDvmProofs.v
theories/PropsAceDvm.v
theories/HscModel.v
theories/HscSpec.v
theories/HscProofs.v
theories/PropsHsc.v
theories/HwAxiModel.v
theories/HwAxiSpec.v
theories/HwAxiProofs.v
theories/PropsHwAxi.v
theories/HwWiresModel.v
theories/HwWiresProofs.v
theories/PropsHwWires.v
theories/HwSlvModel.v
theories/HwSlvSpec.v
theories/HwSlvProofs.v
theories/PropsHwSlv.v
theories/VfioModel.v
theories/VfioProofs.v
theories/VfioSpec.v
theories/PropsVfio.v
theories/HwDescModel.v
theories/HwDescProofs.v
theories/PropsHwDesc.v
